(** The red-black tree on the heap: /repo/src/rbtree.c and /repo/src/include/rbtree.h with their
    pointers.  Definitions only.  RbModel describes the same functions on trees.

    A node is a word with the parent's address and the colour, and the addresses of two children;
    NULL is 0.  An access to memory that is not a node, or one that was freed, ends in [Fault].
    Simplification: the words of a node are read and written together where the code uses several
    of one node without a write in between; addresses are unbounded. *)
From Verif Require Import Base.

(** struct rb_node, include/rbtree.h:38-42, and struct rb_root, 45-47 *)
Record cell := Cell { pc : Z; lft : Z; rgt : Z }.
Record heap := Heap { root : Z; at_ : Z -> option cell }.

Inductive out (A : Type) := Done (a : A) | Fault | OutOfFuel.
Arguments Done {A}. Arguments Fault {A}. Arguments OutOfFuel {A}.
Definition seq {A B} (a : out A) (f : A -> out B) : out B :=
  match a with Done x => f x | Fault => Fault | OutOfFuel => OutOfFuel end.
Declare Scope rb_scope.
Notation "'do' x <- a ; b" := (seq a (fun x => b)) (at level 200, x pattern, a at level 100, b at level 200) : rb_scope.
Open Scope rb_scope.

Definition upd (m : Z -> option cell) (a : Z) (c : option cell) : Z -> option cell := fun b => if b =? a then c else m b.
Definition ld (a : Z) (h : heap) : out cell := match at_ h a with Some c => Done c | None => Fault end.
Definition put (a : Z) (c : cell) (h : heap) : heap := Heap (root h) (upd (at_ h) a (Some c)).
Definition set_l (a v : Z) (h : heap) : out heap := do c <- ld a h; Done (put a (Cell (pc c) v (rgt c)) h).
Definition set_r (a v : Z) (h : heap) : out heap := do c <- ld a h; Done (put a (Cell (pc c) (lft c) v) h).
Definition set_pc (a v : Z) (h : heap) : out heap := do c <- ld a h; Done (put a (Cell v (lft c) (rgt c)) h).

(** RB_RED, RB_BLACK, __rb_parent, __rb_color, include/rbtree.h:123-134 *)
Definition RB_RED := 0.  Definition RB_BLACK := 1.
Definition parent_of (w : Z) : Z := Z.land w (Z.lnot 3).
Definition black (w : Z) : bool := negb (Z.land w 1 =? 0).
(** rb_set_parent, 136-139; rb_set_parent_color, 141-145 *)
Definition rb_set_parent (a p : Z) (h : heap) : out heap := do c <- ld a h; set_pc a (Z.lor (Z.land (pc c) 1) p) h.
Definition rb_set_parent_color (a p color : Z) (h : heap) : out heap := set_pc a (Z.lor p color) h.
(** rb_set_black, rbtree.c:70-73 *)
Definition rb_set_black (a : Z) (h : heap) : out heap := do c <- ld a h; set_pc a (Z.lor (pc c) RB_BLACK) h.
(** __rb_change_child, include/rbtree.h:147-158 *)
Definition change_child (old new parent : Z) (h : heap) : out heap :=
  if parent =? 0 then Done (Heap new (at_ h))
  else do c <- ld parent h; if lft c =? old then set_l parent new h else set_r parent new h.
(** __rb_rotate_set_parents, rbtree.c:85-93 *)
Definition rotate_set_parents (old new color : Z) (h : heap) : out heap :=
  do c <- ld old h; let parent := parent_of (pc c) in
  do h <- set_pc new (pc c) h; do h <- rb_set_parent_color old new color h; change_child old new parent h.
(** [if (tmp) rb_set_parent_color(tmp, p, color)] and [tmp && rb_is_red(tmp)] *)
Definition opt_set_parent_color (a p color : Z) (h : heap) : out heap :=
  if a =? 0 then Done h else rb_set_parent_color a p color h.
Definition red_there (a : Z) (h : heap) : out bool :=
  if a =? 0 then Done false else do c <- ld a h; Done (negb (black (pc c))).

(** __rb_insert, rbtree.c:95-213: an iteration of the loop for each unit of fuel *)
Fixpoint rb_insert (fuel : nat) (node parent : Z) (h : heap) : out heap :=
  match fuel with
  | O => OutOfFuel
  | S fuel =>
      if parent =? 0 then rb_set_parent_color node 0 RB_BLACK h                       (* 108-110 *)
      else
        do cp <- ld parent h;
        if black (pc cp) then Done h                                                  (* 111-112 *)
        else
          let gparent := pc cp in                                                     (* 114 *)
          do cg <- ld gparent h;
          if negb (parent =? rgt cg) then                                             (* 116-117 *)
            let tmp := rgt cg in
            do r <- red_there tmp h;
            if r then                                                                 (* 118-138 *)
              do h <- rb_set_parent_color tmp gparent RB_BLACK h;
              do h <- rb_set_parent_color parent gparent RB_BLACK h;
              do cn <- ld gparent h;
              let up := parent_of (pc cn) in
              do h <- rb_set_parent_color gparent up RB_RED h;
              rb_insert fuel gparent up h
            else
              do (parent, tmp, h) <-
                (if node =? rgt cp then                                               (* 140-162 *)
                   do cn <- ld node h;
                   let tmp := lft cn in
                   do h <- set_r parent tmp h;
                   do h <- set_l node parent h;
                   do h <- opt_set_parent_color tmp parent RB_BLACK h;
                   do h <- rb_set_parent_color parent node RB_RED h;
                   do cn <- ld node h; Done (node, rgt cn, h)
                 else Done (parent, rgt cp, h));
              do h <- set_l gparent tmp h;                                            (* 173-178 *)
              do h <- set_r parent gparent h;
              do h <- opt_set_parent_color tmp gparent RB_BLACK h;
              rotate_set_parents gparent parent RB_RED h
          else
            let tmp := lft cg in                                                      (* 180 *)
            do r <- red_there tmp h;
            if r then                                                                 (* 181-189 *)
              do h <- rb_set_parent_color tmp gparent RB_BLACK h;
              do h <- rb_set_parent_color parent gparent RB_BLACK h;
              do cn <- ld gparent h;
              let up := parent_of (pc cn) in
              do h <- rb_set_parent_color gparent up RB_RED h;
              rb_insert fuel gparent up h
            else
              do (parent, tmp, h) <-
                (if node =? lft cp then                                               (* 191-202 *)
                   do cn <- ld node h;
                   let tmp := rgt cn in
                   do h <- set_l parent tmp h;
                   do h <- set_r node parent h;
                   do h <- opt_set_parent_color tmp parent RB_BLACK h;
                   do h <- rb_set_parent_color parent node RB_RED h;
                   do cn <- ld node h; Done (node, lft cn, h)
                 else Done (parent, lft cp, h));
              do h <- set_r gparent tmp h;                                            (* 204-210 *)
              do h <- set_l parent gparent h;
              do h <- opt_set_parent_color tmp gparent RB_BLACK h;
              rotate_set_parents gparent parent RB_RED h
  end.
(** rb_insert_color, rbtree.c:400-403 *)
Definition rb_insert_color (fuel : nat) (node : Z) (h : heap) : out heap :=
  do c <- ld node h; rb_insert fuel node (pc c) h.

(** ____rb_erase_color, rbtree.c:219-385; [node] is NULL at first.  Cases 2 to 4 of one iteration
    for a node on the left (251-337) and on the right (348-383); [again] is the next iteration. *)
Definition erase_left (again : Z -> Z -> heap -> out heap) (parent sibling : Z) (h : heap) : out heap :=
  do cs <- ld sibling h;
  do r1 <- red_there (rgt cs) h;
  do r2 <- (if r1 then Done true else red_there (lft cs) h);
  if negb r1 && negb r2 then                                                          (* 254-280 *)
    do h <- rb_set_parent_color sibling parent RB_RED h;
    do cp <- ld parent h;
    if negb (black (pc cp)) then rb_set_black parent h
    else let up := parent_of (pc cp) in
         if up =? 0 then Done h else again parent up h
  else
    do (tmp1, sibling, h) <-
      (if r1 then Done (rgt cs, sibling, h)
       else                                                                           (* 308-316 *)
         let tmp2 := lft cs in
         do c2 <- ld tmp2 h;
         let tmp1 := rgt c2 in
         do h <- set_l sibling tmp1 h;
         do h <- set_r tmp2 sibling h;
         do h <- set_r parent tmp2 h;
         do h <- opt_set_parent_color tmp1 sibling RB_BLACK h;
         Done (sibling, tmp2, h));
    do cs <- ld sibling h;                                                            (* 329-336 *)
    let tmp2 := lft cs in
    do h <- set_r parent tmp2 h;
    do h <- set_l sibling parent h;
    do h <- rb_set_parent_color tmp1 sibling RB_BLACK h;
    do h <- (if tmp2 =? 0 then Done h else rb_set_parent tmp2 parent h);
    rotate_set_parents parent sibling RB_BLACK h.
Definition erase_right (again : Z -> Z -> heap -> out heap) (parent sibling : Z) (h : heap) : out heap :=
  do cs <- ld sibling h;
  do r1 <- red_there (lft cs) h;
  do r2 <- (if r1 then Done true else red_there (rgt cs) h);
  if negb r1 && negb r2 then                                                          (* 351-363 *)
    do h <- rb_set_parent_color sibling parent RB_RED h;
    do cp <- ld parent h;
    if negb (black (pc cp)) then rb_set_black parent h
    else let up := parent_of (pc cp) in
         if up =? 0 then Done h else again parent up h
  else
    do (tmp1, sibling, h) <-
      (if r1 then Done (lft cs, sibling, h)
       else                                                                           (* 364-372 *)
         let tmp2 := rgt cs in
         do c2 <- ld tmp2 h;
         let tmp1 := lft c2 in
         do h <- set_r sibling tmp1 h;
         do h <- set_l tmp2 sibling h;
         do h <- set_l parent tmp2 h;
         do h <- opt_set_parent_color tmp1 sibling RB_BLACK h;
         Done (sibling, tmp2, h));
    do cs <- ld sibling h;                                                            (* 374-382 *)
    let tmp2 := rgt cs in
    do h <- set_l parent tmp2 h;
    do h <- set_r sibling parent h;
    do h <- rb_set_parent_color tmp1 sibling RB_BLACK h;
    do h <- (if tmp2 =? 0 then Done h else rb_set_parent tmp2 parent h);
    rotate_set_parents parent sibling RB_BLACK h.
Fixpoint rb_erase_color (fuel : nat) (node parent : Z) (h : heap) : out heap :=
  match fuel with
  | O => OutOfFuel
  | S fuel =>
      do cp <- ld parent h;
      if negb (node =? rgt cp) then                                                   (* 232-233 *)
        let sibling := rgt cp in
        do cs <- ld sibling h;
        if negb (black (pc cs)) then                                                  (* 234-250 *)
          let tmp1 := lft cs in
          do h <- set_r parent tmp1 h;
          do h <- set_l sibling parent h;
          do h <- rb_set_parent_color tmp1 parent RB_BLACK h;
          do h <- rotate_set_parents parent sibling RB_RED h;
          erase_left (rb_erase_color fuel) parent tmp1 h
        else erase_left (rb_erase_color fuel) parent sibling h
      else
        let sibling := lft cp in                                                      (* 338 *)
        do cs <- ld sibling h;
        if negb (black (pc cs)) then                                                  (* 339-347 *)
          let tmp1 := rgt cs in
          do h <- set_l parent tmp1 h;
          do h <- set_r sibling parent h;
          do h <- rb_set_parent_color tmp1 parent RB_BLACK h;
          do h <- rotate_set_parents parent sibling RB_RED h;
          erase_right (rb_erase_color fuel) parent tmp1 h
        else erase_right (rb_erase_color fuel) parent sibling h
  end.

(** The loop of case 3 of __rb_erase, include/rbtree.h:215-219: the node below which, and the
    node, from which it does not go further left; [tmp] is successor->rb_left *)
Fixpoint down_left (fuel : nat) (parent successor tmp : Z) (h : heap) : out (Z * Z) :=
  match fuel with
  | O => OutOfFuel
  | S fuel => if tmp =? 0 then Done (parent, successor)
              else do c <- ld tmp h; down_left fuel successor tmp (lft c) h
  end.
(** __rb_erase, include/rbtree.h:161-256: where the tree has to be rebalanced, or 0; first the
    last part of the case of two children, 229-253 *)
Definition rb_succeed (node parent successor child2 : Z) (h : heap) : out (Z * heap) :=
  do cn <- ld node h;
  let tmp := lft cn in                                                                (* 229-231 *)
  do h <- set_l successor tmp h;
  do h <- rb_set_parent tmp successor h;
  do cn <- ld node h;
  let pcn := pc cn in                                                                 (* 233-235 *)
  do h <- change_child node successor (parent_of pcn) h;
  if child2 =? 0 then                                                                 (* 241-245 *)
    do cs <- ld successor h;
    do h <- set_pc successor pcn h;
    Done ((if black (pc cs) then parent else 0), h)
  else                                                                                (* 237-240 *)
    do h <- set_pc successor pcn h;
    do h <- rb_set_parent_color child2 parent RB_BLACK h;
    Done (0, h).
Definition rb_unlink (fuel : nat) (node : Z) (h : heap) : out (Z * heap) :=
  do cn <- ld node h;
  let child := rgt cn in
  if lft cn =? 0 then                                                                 (* 169-185 *)
    let parent := parent_of (pc cn) in
    do h <- change_child node child parent h;
    if child =? 0 then Done ((if black (pc cn) then parent else 0), h)
    else do h <- set_pc child (pc cn) h; Done (0, h)
  else if child =? 0 then                                                             (* 186-192 *)
    do h <- set_pc (lft cn) (pc cn) h;
    do h <- change_child node (lft cn) (parent_of (pc cn)) h;
    Done (0, h)
  else                                                                                (* 193-253 *)
    do cc <- ld child h;
    if lft cc =? 0 then rb_succeed node child child (rgt cc) h                        (* 196-207 *)
    else                                                                              (* 208-226 *)
      do (parent, successor) <- down_left fuel child child (lft cc) h;
      do cs <- ld successor h;
      let child2 := rgt cs in
      do h <- set_l parent child2 h;
      do h <- set_r successor child h;
      do h <- rb_set_parent child successor h;
      rb_succeed node parent successor child2 h.
(** rb_erase, rbtree.c:406-412 *)
Definition rb_erase (fuel : nat) (node : Z) (h : heap) : out heap :=
  do (rebalance, h) <- rb_unlink fuel node h;
  if rebalance =? 0 then Done h else rb_erase_color fuel 0 rebalance h.

(** rb_first and rb_last, rbtree.c:418-441, from the root; their loops *)
Fixpoint go_left (fuel : nat) (n : Z) (h : heap) : out Z :=
  match fuel with O => OutOfFuel | S fuel => do c <- ld n h; if lft c =? 0 then Done n else go_left fuel (lft c) h end.
Fixpoint go_right (fuel : nat) (n : Z) (h : heap) : out Z :=
  match fuel with O => OutOfFuel | S fuel => do c <- ld n h; if rgt c =? 0 then Done n else go_right fuel (rgt c) h end.
Definition rb_first (fuel : nat) (h : heap) : out Z := if root h =? 0 then Done 0 else go_left fuel (root h) h.
Definition rb_last (fuel : nat) (h : heap) : out Z := if root h =? 0 then Done 0 else go_right fuel (root h) h.
(** rb_next and rb_prev, rbtree.c:444-502 *)
Fixpoint climb_right (fuel : nat) (n : Z) (h : heap) : out Z :=                        (* 469-472 *)
  match fuel with
  | O => OutOfFuel
  | S fuel => do c <- ld n h; let parent := parent_of (pc c) in
              if parent =? 0 then Done 0
              else do cp <- ld parent h; if n =? rgt cp then climb_right fuel parent h else Done parent
  end.
Fixpoint climb_left (fuel : nat) (n : Z) (h : heap) : out Z :=                         (* 498-501 *)
  match fuel with
  | O => OutOfFuel
  | S fuel => do c <- ld n h; let parent := parent_of (pc c) in
              if parent =? 0 then Done 0
              else do cp <- ld parent h; if n =? lft cp then climb_left fuel parent h else Done parent
  end.
Definition rb_next (fuel : nat) (n : Z) (h : heap) : out Z :=
  do c <- ld n h;
  if pc c =? n then Done 0                                                            (* RB_EMPTY_NODE *)
  else if rgt c =? 0 then climb_right fuel n h else go_left fuel (rgt c) h.
Definition rb_prev (fuel : nat) (n : Z) (h : heap) : out Z :=
  do c <- ld n h;
  if pc c =? n then Done 0
  else if lft c =? 0 then climb_left fuel n h else go_right fuel (lft c) h.

(** ** LibCare API, include/rbtree.h:259-352 *)
Section Api.
Variable K : Type.
Variable cmp : Z -> K -> Z.                                                           (* rb_cmp_fn_t *)
(** rb_search_node, 275-296, from [n] *)
Fixpoint rb_search_from (fuel : nat) (n : Z) (k : K) (h : heap) : out Z :=
  match fuel with
  | O => OutOfFuel
  | S fuel =>
      if n =? 0 then Done 0
      else do c <- ld n h;
           if cmp n k <? 0 then rb_search_from fuel (lft c) k h
           else if 0 <? cmp n k then rb_search_from fuel (rgt c) k h
           else Done n
  end.
Definition rb_search_node (fuel : nat) (k : K) (h : heap) : out Z := rb_search_from fuel (root h) k h.
(** rb_insert_node, 299-324: the walk; [parent] is the node walked from, [left] whether to its
    left.  The pointer [node] to a pointer is this pair. *)
Fixpoint rb_walk (fuel : nat) (n parent : Z) (left : bool) (k : K) (h : heap) : out (Z * Z * bool) :=
  match fuel with
  | O => OutOfFuel
  | S fuel =>
      if n =? 0 then Done (0, parent, left)
      else do c <- ld n h;
           if cmp n k <? 0 then rb_walk fuel (lft c) n true k h
           else if 0 <? cmp n k then rb_walk fuel (rgt c) n false k h
           else Done (n, parent, left)
  end.
(** rb_link_node, 83-90 *)
Definition rb_link_node (node parent : Z) (left : bool) (h : heap) : out heap :=
  do _ <- ld node h;
  let h := put node (Cell parent 0 0) h in
  if parent =? 0 then Done (Heap node (at_ h)) else if left then set_l parent node h else set_r parent node h.
Definition rb_insert_node (fuel : nat) (new : Z) (k : K) (h : heap) : out (Z * heap) :=
  do (found, parent, lf) <- rb_walk fuel (root h) 0 true k h;
  if found =? 0 then
    do h <- rb_link_node new parent lf h; do h <- rb_insert_color fuel new h; Done (0, h)
  else Done (found, h).
(** rb_search_node and rb_erase, as in rename_del (kpatch_gensrc.c:184-194) *)
Definition rb_remove (fuel : nat) (k : K) (h : heap) : out heap :=
  do n <- rb_search_node fuel k h; if n =? 0 then Done h else rb_erase fuel n h.
End Api.
Arguments rb_search_from {K}. Arguments rb_search_node {K}. Arguments rb_walk {K}. Arguments rb_insert_node {K}. Arguments rb_remove {K}.

(** rb_destroy, include/rbtree.h:326-352.  The callback frees the node: its memory is gone and
    its address is noted.  Simplification: the value of the pointer to the freed node is still
    compared (345), which the language does not allow but every compiler does. *)
Definition drop (a : Z) (h : heap) : heap := Heap (root h) (upd (at_ h) a None).
Fixpoint destroy_up (fuel : nat) (node parent : Z) (h : heap) : out Z :=               (* 345-349 *)
  match fuel with
  | O => OutOfFuel
  | S fuel => if parent =? 0 then Done 0
              else do cp <- ld parent h;
                   if node =? rgt cp then destroy_up fuel parent (parent_of (pc cp)) h else Done parent
  end.
Fixpoint rb_destroy_from (fuel : nat) (node : Z) (freed : list Z) (h : heap) : out (list Z * heap) :=
  match fuel with
  | O => OutOfFuel
  | S f =>
      if node =? 0 then Done (freed, h)
      else
        do c <- ld node h;
        let right := rgt c in
        let parent := parent_of (pc c) in
        let h := drop node h in
        let freed := freed ++ [node] in
        if right =? 0 then do n <- destroy_up fuel node parent h; rb_destroy_from f n freed h
        else do h <- set_pc right parent h;
             do n <- go_left fuel right h; rb_destroy_from f n freed h
  end.
Definition rb_destroy (fuel : nat) (h : heap) : out (list Z * heap) :=
  do n <- rb_first fuel h; rb_destroy_from fuel n [] h.
