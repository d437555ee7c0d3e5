(** What the tree should be, independent of the algorithms. *)
From Verif Require Import Base RbModel.

Section Spec.
Variable A K : Type.

(** The elements from left to right. *)
Fixpoint elements (t : tree A) : list A :=
  match t with Leaf => [] | Node _ l x r => elements l ++ x :: elements r end.
(** Nodes on the longest way down. *)
Fixpoint depth (t : tree A) : Z :=
  match t with Leaf => 0 | Node _ l _ r => 1 + Z.max (depth l) (depth r) end.

(** A comparison that orders the keys of [dom]. *)
Record orders (kcmp : K -> K -> Z) (dom : K -> Prop) : Prop := {
  o_eq : forall a b, dom a -> dom b -> (kcmp a b = 0 <-> a = b);
  o_opp : forall a b, dom a -> dom b -> (kcmp a b < 0 <-> 0 < kcmp b a);
  o_trans : forall a b c, dom a -> dom b -> dom c -> kcmp a b < 0 -> kcmp b c < 0 -> kcmp a c < 0 }.

(** A program of operations on the tree and what a set of elements with distinct
    keys makes of it. *)
Inductive op := Insert (x : A) | Erase (k : K).
Variable key : A -> K.
Variable kcmp : K -> K -> Z.
Definition cmp (a : A) (k : K) : Z := kcmp (key a) k.
Variable keqb : K -> K -> bool.
Definition set_step (l : list A) (o : op) : list A :=
  match o with
  | Insert x => if existsb (fun y => keqb (key y) (key x)) l then l else x :: l
  | Erase k => filter (fun y => negb (keqb (key y) k)) l
  end.
Definition tree_step (t : option (tree A)) (o : op) : option (tree A) :=
  match t with
  | None => None
  | Some t => match o with
              | Insert x => match insert cmp t x (key x) with Some (t', _) => Some t' | None => None end
              | Erase k => erase cmp t k
              end
  end.
Definition op_key (o : op) : K := match o with Insert x => key x | Erase k => k end.
End Spec.
Arguments elements {A}.
Arguments depth {A}.
Arguments orders {K}.
Arguments cmp {A K} key kcmp a k /.
Arguments Insert {A K}.
Arguments Erase {A K}.
Arguments set_step {A K}.
Arguments tree_step {A K}.
Arguments op_key {A K}.
