(** What is said of the two stages of libcare-pkgbuild, without the functions of the model. *)
From Coq Require Import String.
From Verif Require Import Base StorageModel TextModel.
Open Scope list_scope.

(** A name of the directory d or in it *)
Definition inside (d p : text) : Prop := p = d \/ exists r, p = d ++ 47 :: r.
(** What is found under a name *)
Definition found {X : Type} (l : list (text * X)) (p : text) (x : X) : Prop :=
  exists l1 l2, l = l1 ++ (p, x) :: l2 /\ forall y, ~ In (p, y) l1.
(** Two disks hold the same under a name *)
Definition same_at {X : Type} (l l' : list (text * X)) (p : text) : Prop := forall x, found l p x <-> found l' p x.
Definition missing {X : Type} (l : list (text * X)) (p : text) : Prop := forall x, ~ found l p x.
(** A full name with one slash in front *)
Definition full (p : text) : Prop := exists c r, p = 47 :: c :: r /\ c <> 47.
(** A part of the line is the pattern, where a dot stands for any character *)
Definition fits (pat s : text) : Prop := Forall2 (fun p c => p = 46 \/ p = c) pat s.
Definition part_fits (pat line : text) : Prop := exists a s b, line = a ++ s ++ b /\ fits pat s.
