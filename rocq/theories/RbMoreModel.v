(** More of the red-black tree on the heap: replacing a node and the walk in postorder.
    /repo/src/rbtree.c:505-560 and /repo/src/include/rbtree.h:115-119.  Definitions only; no tool
    of the project calls them, the header offers them. *)
From Verif Require Import Base RbHeapModel.

(** rb_replace_node, rbtree.c:505-519 *)
Definition rb_replace_node (victim new : Z) (h : heap) : out heap :=
  do c <- ld victim h;
  let parent := parent_of (pc c) in                                                   (* 508 *)
  do _ <- ld new h;
  let h := put new c h in                                                             (* 511 *)
  do c <- ld victim h;
  do h <- (if lft c =? 0 then Done h else rb_set_parent (lft c) new h);               (* 514-515 *)
  do c <- ld victim h;
  do h <- (if rgt c =? 0 then Done h else rb_set_parent (rgt c) new h);               (* 516-517 *)
  change_child victim new parent h.                                                   (* 518 *)

(** rb_left_deepest_node, rbtree.c:523-533 *)
Fixpoint rb_left_deepest_node (fuel : nat) (node : Z) (h : heap) : out Z :=
  match fuel with
  | O => OutOfFuel
  | S fuel => do c <- ld node h;
              if negb (lft c =? 0) then rb_left_deepest_node fuel (lft c) h
              else if negb (rgt c =? 0) then rb_left_deepest_node fuel (rgt c) h
              else Done node
  end.
(** rb_next_postorder, rbtree.c:535-551 *)
Definition rb_next_postorder (fuel : nat) (node : Z) (h : heap) : out Z :=
  if node =? 0 then Done 0
  else do c <- ld node h;
       let parent := parent_of (pc c) in
       if parent =? 0 then Done parent
       else do cp <- ld parent h;
            if (node =? lft cp) && negb (rgt cp =? 0) then rb_left_deepest_node fuel (rgt cp) h
            else Done parent.
(** rb_first_postorder, rbtree.c:554-560 *)
Definition rb_first_postorder (fuel : nat) (h : heap) : out Z :=
  if root h =? 0 then Done 0 else rb_left_deepest_node fuel (root h) h.

(** rbtree_postorder_for_each_entry_safe, include/rbtree.h:115-119, with a body that frees the
    node it is at: the next node is found before.  Gives the nodes in the order they are freed.
    [loop] bounds the iterations, [fuel] every walk down. *)
Fixpoint free_from (fuel loop : nat) (pos : Z) (h : heap) : out (list Z * heap) :=
  match loop with
  | O => OutOfFuel
  | S loop => if pos =? 0 then Done ([], h)
              else do n <- rb_next_postorder fuel pos h;
                   do (l, h) <- free_from fuel loop n (drop pos h); Done (pos :: l, h)
  end.
Definition free_postorder (fuel : nat) (h : heap) : out (list Z * heap) :=
  do n <- rb_first_postorder fuel h; free_from fuel fuel n h.
