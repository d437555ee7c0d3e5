(** What replacing a node and walking in postorder should do. *)
From Verif Require Import Base RbModel RbSpec RbHeapModel RbHeapSpec.

(** One address for another *)
Definition swap (v n a : Z) : Z := if a =? v then n else a.
Fixpoint renamed (v n : Z) (t : tree Z) : tree Z :=
  match t with Leaf => Leaf | Node c l x r => Node c (renamed v n l) (swap v n x) (renamed v n r) end.
(** Children before their parent, the left ones first *)
Fixpoint post (t : tree Z) : list Z :=
  match t with Leaf => [] | Node _ l x r => post l ++ post r ++ [x] end.
(** [a] is before [b] in the list *)
Definition earlier (l : list Z) (a b : Z) : Prop := exists l1 l2 l3, l = l1 ++ a :: l2 ++ b :: l3.
(** The loop of the callers of rb_first and rb_next with a body that frees the node, the next one
    found before *)
Fixpoint free_inorder (fuel loop : nat) (pos : Z) (h : heap) : out (list Z * heap) :=
  match loop with
  | O => OutOfFuel
  | S loop => if pos =? 0 then Done ([], h)
              else match rb_next fuel pos h with
                   | Done n => match free_inorder fuel loop n (drop pos h) with Done (l, h) => Done (pos :: l, h) | e => e end
                   | Fault => Fault | OutOfFuel => OutOfFuel
                   end
  end.
