(** Commands and PATH, without the functions of the model. *)
From Coq Require Import String.
From Verif Require Import Base StorageModel TextModel.
Open Scope list_scope.

(** The program in [d] is the one a command stands for *)
Definition stands_in (exec : text -> bool) (path : list text) (n d : text) : Prop :=
  exists l1 l2, path = l1 ++ d :: l2 /\ exec (d ++ 47 :: n) = true /\ forall d', In d' l1 -> exec (d' ++ 47 :: n) = false.
Definition stands_for (exec : text -> bool) (path : list text) (n p : text) : Prop := exists d, stands_in exec path n d /\ p = d ++ 47 :: n.
(** A directory in which nothing is yet *)
Definition fresh (exec : text -> bool) (tmp : text) : Prop := forall r, exec (tmp ++ 47 :: r) = false.
Definition absolute (p : text) : Prop := exists r, p = 47 :: r.
(** The compilers the script cares for *)
Definition compiler (n : text) : Prop := In n [str "cc"; str "gcc"; str "g++"; str "c++"].
(** Those it replaces: cc, and what is in /usr/bin *)
Definition replaced (exec : text -> bool) (n : text) : Prop := compiler n /\ (n = str "cc" \/ exec (str "/usr/bin/" ++ n) = true).
