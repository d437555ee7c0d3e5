(** Vocabulary for the statements about building a package of patches. *)
From Coq Require Import String.
From Verif Require Import Base StorageModel StorageSpec PkgModel.
Open Scope list_scope.

(** What is written in a list of patches, line by line. *)
Inductive entry := Comment (pre body : list Z) | Empty (pre : list Z) | Patch (pre name post : list Z).
Definition blanks (s : list Z) : Prop := forall c, In c s -> c = 32 \/ c = 9.
(** No newline and no backslash. *)
Definition calm (s : list Z) : Prop := forall c, In c s -> c <> 10 /\ c <> 92.
Definition name_ok (n : list Z) : Prop :=
  calm n /\ (forall c, In c n -> c <> 32 /\ c <> 9) /\ n <> [] /\ hd 0 n <> 35.
Definition entry_ok (e : entry) : Prop :=
  match e with
  | Comment p b => blanks p /\ calm b
  | Empty p => blanks p
  | Patch p n q => blanks p /\ name_ok n /\ blanks q
  end.
Definition entry_text (e : entry) : list Z :=
  match e with Comment p b => p ++ 35 :: b | Empty p => p | Patch p n q => p ++ n ++ q end.
(** The last line may lack its newline. *)
Fixpoint list_text (last_newline : bool) (l : list entry) : list Z :=
  match l with
  | [] => []
  | [e] => entry_text e ++ (if last_newline then [10] else [])
  | e :: r => entry_text e ++ 10 :: list_text last_newline r
  end.
Definition names (l : list entry) : list (list Z) :=
  flat_map (fun e => match e with Patch _ n _ => [n] | _ => [] end) l.

(** Patches in their order, up to the first that fails. *)
Fixpoint in_order {T} (apply : list Z -> T -> T * bool) (l : list (list Z)) (t : T) : list (list Z) * T * bool :=
  match l with
  | [] => ([], t, true)
  | n :: r => if snd (apply n t)
              then let '(d, t', ok) := in_order apply r (fst (apply n t)) in (n :: d, t', ok)
              else ([n], fst (apply n t), false)
  end.

(** The build id a patch is made for, and whether one is made. *)
Definition bid_for {T} (k : tools T) (override : list Z) (t : T) (x : list Z) : list Z :=
  match override with [] => debug_id T k t x | _ => override end.
Definition eligible {T} (k : tools T) (override : list Z) (t : T) (x : list Z) : Prop :=
  In x (targets T k t) /\ bid_for k override t x <> [] /\ has_kpatch T k t x = true.
(** No two programs that get a patch have the same id. *)
Definition ids_differ {T} (k : tools T) (override : list Z) (t : T) : Prop :=
  forall x y, eligible k override t x -> eligible k override t y ->
    bid_for k override t x = bid_for k override t y -> x = y.

(** Build ids as directory names. *)
Definition id_ok (b : list Z) : Prop := bid_ok b /\ ~ In 47 b.

(** The id of a list named [name]: what comes before the first dot. *)
Definition list_id (name id : list Z) : Prop := ~ In 46 id /\ (name = id \/ exists rest, name = id ++ 46 :: rest).
