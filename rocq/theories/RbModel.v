(** The red-black tree (/repo/src/rbtree.c, /repo/src/include/rbtree.h).
    Definitions only.

    Simplification: a node with its parent pointer is modelled as a subtree
    together with the path up to the root (a zipper): [rb_parent] is the first
    frame of the path, and following it is moving to the rest of the path.  The
    pointer assignments of one iteration of a loop are modelled together as the
    rebuilt subtree.  [None] is the dereference of a null pointer.  RbHeapModel has the
    loads and stores themselves, and C128_refines relates the two. *)
From Verif Require Import Base.

Inductive color := Red | Black.

Section Tree.
Variable A : Type.

(** struct rb_node, include/rbtree.h:39-44 *)
Inductive tree := Leaf | Node (c : color) (l : tree) (x : A) (r : tree).

(** One step up: on which side of the parent we are, the parent's colour and
    element, and its other subtree. *)
Inductive side := L | R.
Definition frame : Type := side * color * A * tree.

Definition mk (s : side) (c : color) (x : A) (t other : tree) : tree :=
  match s with L => Node c t x other | R => Node c other x t end.
Fixpoint plug (z : list frame) (t : tree) : tree :=
  match z with
  | [] => t
  | (s, c, x, o) :: z' => plug z' (mk s c x t o)
  end.

(** rb_is_red of a node that exists; a null pointer counts as black where the code
    tests for it. *)
Definition is_red (t : tree) : bool := match t with Node Red _ _ _ => true | _ => false end.
Definition recolor (c : color) (t : tree) : tree :=
  match t with Leaf => Leaf | Node _ l x r => Node c l x r end.

(** __rb_insert, rbtree.c:95-213.  [node] is red; the path's first frame is its
    parent, the second its grandparent. *)
Fixpoint insert_color (node : tree) (z : list frame) : option tree :=
  match z with
  | [] => Some (recolor Black node)                       (* 108-110 *)
  | (sp, Black, xp, op) :: z1 => Some (plug z node)       (* 111-112 *)
  | (sp, Red, xp, op) :: z1 =>
      match z1 with
      | [] => None                                        (* gparent is NULL, 114-116 *)
      | (sg, cg, xg, u) :: z2 =>
          if is_red u
          then (* 118-138, 181-189: color flip, continue at gparent *)
            insert_color (mk sg Red xg (mk sp Black xp node op) (recolor Black u)) z2
          else
            match sg, sp, node with
            | L, L, _ =>                                  (* 173-178: case 3 *)
                Some (plug z2 (Node cg node xp (Node Red (recolor Black op) xg u)))
            | L, R, Node _ nl xn nr =>                    (* 140-178: cases 2 and 3 *)
                Some (plug z2 (Node cg (Node Red op xp (recolor Black nl)) xn
                                    (Node Red (recolor Black nr) xg u)))
            | R, R, _ =>                                  (* 204-210: case 3 *)
                Some (plug z2 (Node cg (Node Red u xg (recolor Black op)) xp node))
            | R, L, Node _ nl xn nr =>                    (* 191-210: cases 2 and 3 *)
                Some (plug z2 (Node cg (Node Red u xg (recolor Black nl)) xn
                                    (Node Red (recolor Black nr) xp op)))
            | _, _, Leaf => None
            end
      end
  end.

(** One iteration of ____rb_erase_color (rbtree.c:219-385) after case 1:
    [node] is the deficient subtree on side [sd] of the parent (colour [cp],
    element [xp]), [s] its sibling.  [inl]: the loop ends with this subtree in
    place of the parent; [inr]: it goes on with it as the new deficient node. *)
Definition erase_tail (sd : side) (node : tree) (cp : color) (xp : A) (s : tree)
  : option (tree + tree) :=
  match s with
  | Leaf => None                                          (* sibling->rb_right, 251 *)
  | Node cs sl xs sr =>
      let far := match sd with L => sr | R => sl end in
      let near := match sd with L => sl | R => sr end in
      (* [mk sd]: the side of the deficient node is the near side *)
      if negb (is_red far) then
        if negb (is_red near) then                        (* case 2, 254-280, 351-363 *)
          let sib := Node Red sl xs sr in
          let par c := mk sd c xp node sib in
          match cp with
          | Red => Some (inl (par Black))
          | Black => Some (inr (par Black))
          end
        else
          match near with                                 (* case 3, 308-315, 364-372, then case 4 *)
          | Leaf => None
          | Node cn nl xn nr =>
              let inner := match sd with L => nl | R => nr end in   (* near side of near *)
              let outer := match sd with L => nr | R => nl end in
              let sib := mk sd cs xs (recolor Black outer) far in
              (* tmp1 = sibling (the old one), sibling = tmp2 (near) *)
              Some (inl (mk sd cp xn (mk sd Black xp node inner) (recolor Black sib)))
          end
      else                                                (* case 4, 329-336, 374-382 *)
        Some (inl (mk sd cp xs (mk sd Black xp node near) (recolor Black far)))
  end.

(** The whole iteration: case 1 (234-250, 339-347) turns a red sibling into a black one and
    the parent red; the rest happens below it. *)
Fixpoint erase_color (node : tree) (z : list frame) : option tree :=
  match z with
  | [] => Some node                                       (* parent == NULL *)
  | (sd, cp, xp, s) :: z' =>
      match s with
      | Node Red sl xs sr =>
          let far := match sd with L => sr | R => sl end in
          let near := match sd with L => sl | R => sr end in
          match near with
          | Leaf => None                                  (* rb_set_parent_color(tmp1,...), 247 *)
          | Node _ _ _ _ =>
              match erase_tail sd node Red xp (recolor Black near) with
              | Some (inl p) => Some (plug ((sd, cp, xs, far) :: z') p)
              | _ => None              (* the parent is red, so the loop ends; kept total *)
              end
          end
      | _ =>
          match erase_tail sd node cp xp s with
          | Some (inl p) => Some (plug z' p)
          | Some (inr p) => erase_color p z'
          | None => None
          end
      end
  end.

(** __rb_erase, include/rbtree.h:161-256, and rb_erase, rbtree.c:406-412.  The node
    to erase is [Node c l x r] with path [z]. *)

(** 194-229: the leftmost node below [t = Node c l x r] with the path from it. *)
Fixpoint leftmost (c : color) (l : tree) (x : A) (r : tree) (z : list frame)
  : color * A * tree * list frame :=
  match l with
  | Leaf => (c, x, r, z)
  | Node cl ll xl rl => leftmost cl ll xl rl ((L, c, x, r) :: z)
  end.

Definition erase_node (c : color) (l : tree) (x : A) (r : tree) (z : list frame) : option tree :=
  match l, r with
  | Leaf, Leaf =>                                          (* 183-184 *)
      match c with
      | Black => erase_color Leaf z
      | Red => Some (plug z Leaf)
      end
  | Leaf, Node _ _ _ _ => Some (plug z (recolor c r))      (* 180-182 *)
  | Node _ _ _ _, Leaf => Some (plug z (recolor c l))      (* 186-192 *)
  | Node _ _ _ _, Node cr lr xr rr =>                      (* 193-253 *)
      (* the successor takes the place and the colour of the node; [zc] is the
         path of child2, the successor's right subtree, in the new tree *)
      let '(cs, xs, child2, zin) := leftmost cr lr xr rr [] in
      let zc := zin ++ (R, c, xs, l) :: z in
      match child2 with
      | Node _ _ _ _ => Some (plug zc (recolor Black child2))
      | Leaf => match cs with
                | Black => erase_color Leaf zc
                | Red => Some (plug zc Leaf)
                end
      end
  end.

(** ** LibCare API, include/rbtree.h:259-352 *)
Variable K : Type.
Variable cmp : A -> K -> Z.                                (* rb_cmp_fn_t *)

(** rb_search_node, 275-296 *)
Fixpoint search (t : tree) (k : K) : option A :=
  match t with
  | Leaf => None
  | Node _ l x r => if cmp x k <? 0 then search l k
                    else if 0 <? cmp x k then search r k
                    else Some x
  end.

(** The same walk, keeping the path (304-317). *)
Fixpoint locate (t : tree) (k : K) (z : list frame) : tree * list frame :=
  match t with
  | Leaf => (Leaf, z)
  | Node c l x r => if cmp x k <? 0 then locate l k ((L, c, x, r) :: z)
                    else if 0 <? cmp x k then locate r k ((R, c, x, l) :: z)
                    else (t, z)
  end.

(** rb_insert_node, 297-324: the new root and the node found, if any.  rb_link_node
    (84-91) makes the new node red, without children. *)
Definition insert (t : tree) (x : A) (k : K) : option (tree * option A) :=
  match locate t k [] with
  | (Leaf, z) => match insert_color (Node Red Leaf x Leaf) z with
                 | Some t' => Some (t', None)
                 | None => None
                 end
  | (Node _ _ y _, _) => Some (t, Some y)
  end.

(** rb_search_node followed by rb_erase of the node found, as in rename_del
    (kpatch_gensrc.c:184-194). *)
Definition erase (t : tree) (k : K) : option tree :=
  match locate t k [] with
  | (Leaf, _) => Some t
  | (Node c l x r, z) => erase_node c l x r z
  end.

(** rb_first and rb_last, rbtree.c:418-441 *)
Fixpoint first_node (t : tree) : option A :=
  match t with
  | Leaf => None
  | Node _ Leaf x _ => Some x
  | Node _ l _ _ => first_node l
  end.
Fixpoint last_node (t : tree) : option A :=
  match t with
  | Leaf => None
  | Node _ _ x Leaf => Some x
  | Node _ _ _ r => last_node r
  end.

(** rb_next and rb_prev, rbtree.c:444-502, from a subtree with its path. *)
Fixpoint up_right (z : list frame) : option A :=          (* 469-472 *)
  match z with
  | [] => None
  | (R, _, _, _) :: z' => up_right z'
  | (L, _, x, _) :: _ => Some x
  end.
Fixpoint up_left (z : list frame) : option A :=
  match z with
  | [] => None
  | (L, _, _, _) :: z' => up_left z'
  | (R, _, x, _) :: _ => Some x
  end.
Definition next_node (t : tree) (z : list frame) : option A :=
  match t with
  | Leaf => None
  | Node _ _ _ Leaf => up_right z
  | Node _ _ _ r => first_node r
  end.
Definition prev_node (t : tree) (z : list frame) : option A :=
  match t with
  | Leaf => None
  | Node _ Leaf _ _ => up_left z
  | Node _ l _ _ => last_node l
  end.
End Tree.

Arguments Leaf {A}.
Arguments Node {A} c l x r.
Arguments plug {A}.
Arguments mk {A}.
Arguments is_red {A}.
Arguments recolor {A}.
Arguments insert_color {A}.
Arguments erase_tail {A}.
Arguments erase_color {A}.
Arguments leftmost {A}.
Arguments erase_node {A}.
Arguments search {A K}.
Arguments locate {A K}.
Arguments insert {A K}.
Arguments erase {A K}.
Arguments first_node {A}.
Arguments last_node {A}.
Arguments up_right {A}.
Arguments up_left {A}.
Arguments next_node {A}.
Arguments prev_node {A}.

(** cblock_start_cmp, kpatch_parse.c:206-211: the comparison of the tree of code
    blocks by first line.  Simplification: line numbers are not negative, so the
    conversion of int to unsigned long does not change them. *)
Definition start_cmp (start k : Z) : Z := if start =? k then 0 else if k <? start then -1 else 1.
