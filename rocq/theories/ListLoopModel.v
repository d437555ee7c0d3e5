(** The loops over linked lists that no tool uses: those that start in the middle, and the one
    backwards that may take entries out.  /repo/src/include/list.h:383-515.  Definitions only. *)
From Verif Require Import Base TextModel ListModel.
Open Scope list_scope.

(** list_prepare_entry, 383-384: NULL stands for the head *)
Definition prepare_entry (pos head : Z) : Z := if pos =? 0 then head else pos.
(** list_for_each_entry_continue, 395-398 *)
Definition for_each_continue (n : nat) (pos head : Z) (body : Z -> heap -> res heap) (h : heap) : res (list Z * heap) :=
  do p <- next pos h; each_from n head p body h.
(** list_for_each_entry_continue_reverse, 409-412 *)
Definition for_each_continue_reverse (n : nat) (pos head : Z) (body : Z -> heap -> res heap) (h : heap) : res (list Z * heap) :=
  do p <- prev pos h; each_back n head p body h.
(** list_for_each_entry_from, 422-424; list_for_each_entry_from_reverse, 435-437 *)
Definition for_each_from (n : nat) (pos head : Z) (body : Z -> heap -> res heap) (h : heap) : res (list Z * heap) :=
  each_from n head pos body h.
Definition for_each_from_reverse (n : nat) (pos head : Z) (body : Z -> heap -> res heap) (h : heap) : res (list Z * heap) :=
  each_back n head pos body h.
(** list_for_each_entry_safe_continue, 462-466 *)
Definition for_each_safe_continue (n : nat) (pos head : Z) (body : Z -> heap -> res heap) (h : heap) : res (list Z * heap) :=
  do p <- next pos h; do q <- next p h; each_safe n head p q body h.
(** list_for_each_entry_safe_from, 478-481 *)
Definition for_each_safe_from (n : nat) (pos head : Z) (body : Z -> heap -> res heap) (h : heap) : res (list Z * heap) :=
  do q <- next pos h; each_safe n head pos q body h.
(** list_for_each_entry_safe_reverse, 493-497 *)
Fixpoint each_safe_back (n : nat) (head pos prv : Z) (body : Z -> heap -> res heap) (h : heap) : res (list Z * heap) :=
  match n with
  | O => Fuel
  | S n' => if pos =? head then Ok ([], h)
            else do h1 <- body pos h;
                 do q <- prev prv h1;
                 do r <- each_safe_back n' head prv q body h1;
                 Ok (pos :: fst r, snd r)
  end.
Definition for_each_safe_reverse (n : nat) (head : Z) (body : Z -> heap -> res heap) (h : heap) : res (list Z * heap) :=
  do p <- prev head h; do q <- prev p h; each_safe_back n head p q body h.
(** list_first_entry_or_null, 294-298; list_empty_careful, 176-180 *)
Definition first_entry_or_null (head : Z) (h : heap) : res Z := do p <- next head h; Ok (if negb (p =? head) then p else 0).
Definition list_empty_careful (head : Z) (h : heap) : res bool :=
  do n <- next head h; if n =? head then do p <- prev head h; Ok (n =? p) else Ok false.
