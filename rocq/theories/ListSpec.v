(** What a linked list in memory is, and what the operations are on sequences. *)
From Verif Require Import Base TextModel ListModel.
Open Scope list_scope.

Definition nxt (h : heap) (a : Z) : option Z := option_map nx (h a).
Definition prv (h : heap) (a : Z) : option Z := option_map pv (h a).
(** From [a] over the entries [l] to [b], and back *)
Fixpoint linked (h : heap) (a : Z) (l : list Z) (b : Z) : Prop :=
  match l with
  | [] => nxt h a = Some b /\ prv h b = Some a
  | x :: r => nxt h a = Some x /\ prv h x = Some a /\ linked h x r b
  end.
(** The list with head [hd] has the entries [l]. *)
Definition ring (h : heap) (hd : Z) (l : list Z) : Prop := NoDup (hd :: l) /\ linked h hd l hd.

(** ** Several lists *)
Definition lists := list (Z * list Z).
Definition nodes (ls : lists) : list Z := flat_map (fun c => fst c :: snd c) ls.
Definition heads (ls : lists) : list Z := map fst ls.
(** They share nothing. *)
Definition holds (h : heap) (ls : lists) : Prop :=
  NoDup (nodes ls) /\ forall c, In c ls -> linked h (fst c) (snd c) (fst c).

(** The operations on sequences *)
Fixpoint insert_before (x y : Z) (l : list Z) : list Z :=
  match l with [] => [] | z :: r => if z =? y then x :: z :: r else z :: insert_before x y r end.
Definition to_list (hd : Z) (f : list Z -> list Z) (ls : lists) : lists :=
  map (fun c => if fst c =? hd then (fst c, f (snd c)) else c) ls.
Definition lstep (o : lop) (ls : lists) : lists :=
  match o with
  | Init a => ls ++ [(a, [])]
  | Add x a => to_list a (fun l => l ++ [x]) ls
  | AddHead x a => to_list a (cons x) ls
  | Before x y => map (fun c => (fst c, insert_before x y (snd c))) ls
  | Del x => map (fun c => (fst c, remove Z.eq_dec x (snd c))) ls
  end.
(** When a program may do so: a new entry is memory that belongs to no list, a list is
    there, an entry to be taken out is in one. *)
Definition lmay (o : lop) (h : heap) (ls : lists) : Prop :=
  match o with
  | Init a => h a <> None /\ ~ In a (nodes ls)
  | Add x a | AddHead x a => h x <> None /\ ~ In x (nodes ls) /\ In a (heads ls)
  | Before x y => h x <> None /\ ~ In x (nodes ls) /\ In y (flat_map snd ls)
  | Del x => In x (flat_map snd ls)
  end.
(** What is not one of their entries an operation leaves alone. *)
Definition ltouched (o : lop) (ls : lists) (a : Z) : Prop :=
  In a (nodes ls) \/ match o with Init x | Add x _ | AddHead x _ | Before x _ | Del x => a = x end.
