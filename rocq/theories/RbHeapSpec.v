(** What a heap has to look like to hold a tree. *)
From Verif Require Import Base RbModel RbSpec RbHeapModel.

(** The pointer to a tree, the tree being of the addresses of its nodes. *)
Definition ptr (t : tree Z) : Z := match t with Leaf => 0 | Node _ _ a _ => a end.
Definition bit (c : color) : Z := match c with Red => 0 | Black => 1 end.
(** A place where a node can be: not NULL and aligned *)
Definition place (a : Z) : Prop := a <> 0 /\ a mod 4 = 0.
(** Every node is where its address says, knows its parent, its colour and its children. *)
Fixpoint holds (m : Z -> option cell) (parent : Z) (t : tree Z) : Prop :=
  match t with
  | Leaf => True
  | Node c l a r => place a /\ m a = Some (Cell (parent + bit c) (ptr l) (ptr r)) /\ holds m a l /\ holds m a r
  end.
(** How often a node is in the tree *)
Fixpoint times (a : Z) (t : tree Z) : Z :=
  match t with Leaf => 0 | Node _ l x r => (if x =? a then 1 else 0) + times a l + times a r end.
Definition stored (h : heap) (t : tree Z) : Prop := root h = ptr t /\ holds (at_ h) 0 t /\ forall a, times a t <= 1.
(** Everything else is as it was. *)
Definition same_outside (h h' : heap) (t : tree Z) : Prop := forall a, times a t = 0 -> at_ h' a = at_ h a.

(** A program of insertions (of the node at an address) and removals (by key), and a walk over
    all nodes as the callers write it: rb_first, then rb_next until NULL; and backwards. *)
Section Programs.
Variable K : Type.
Variable key : Z -> K.
Variable kcmp : K -> K -> Z.
Definition heap_step (fuel : nat) (o : op Z K) (h : heap) : out heap :=
  match o with
  | Insert x => match rb_insert_node (cmp key kcmp) fuel x (key x) h with Done (_, h') => Done h' | Fault => Fault | OutOfFuel => OutOfFuel end
  | Erase k => rb_remove (cmp key kcmp) fuel k h
  end.
Fixpoint heap_run (fuel : nat) (ops : list (op Z K)) (h : heap) : out heap :=
  match ops with
  | [] => Done h
  | o :: ops' => match heap_step fuel o h with Done h' => heap_run fuel ops' h' | Fault => Fault | OutOfFuel => OutOfFuel end
  end.
End Programs.
Arguments heap_step {K}. Arguments heap_run {K}.
Fixpoint visit (step : Z -> out Z) (fuel : nat) (n : Z) : out (list Z) :=
  match fuel with
  | O => OutOfFuel
  | S f => if n =? 0 then Done []
           else match step n with
                | Done m => match visit step f m with Done l => Done (n :: l) | e => e end
                | Fault => Fault | OutOfFuel => OutOfFuel
                end
  end.
Definition forwards (fuel : nat) (h : heap) : out (list Z) :=
  match rb_first fuel h with Done n => visit (fun n => rb_next fuel n h) fuel n | Fault => Fault | OutOfFuel => OutOfFuel end.
Definition backwards (fuel : nat) (h : heap) : out (list Z) :=
  match rb_last fuel h with Done n => visit (fun n => rb_prev fuel n h) fuel n | Fault => Fault | OutOfFuel => OutOfFuel end.
