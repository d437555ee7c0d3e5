(** What it means that blocks cover a file; independent of how ParseModel finds them. *)
From Coq Require Import String Sorted.
From Verif Require Import Base StorageModel TextModel TextSpec ParseModel.
Open Scope list_scope.

(** The line with number [k] is one of the block. *)
Definition covers (b : cblock) (k : nat) : Prop := (b_start b <= k < b_end b)%nat.
(** Blocks in order, one after the other, none empty, in lines 1 to n - 1 *)
Definition in_order (n : nat) (bs : list cblock) : Prop :=
  StronglySorted (fun b c => (b_end b <= b_start c)%nat) bs
  /\ Forall (fun b => (1 <= b_start b < b_end b)%nat /\ (b_end b <= n)%nat) bs.
(** A line that may be left out: it is empty, or makes a symbol weak or global and is,
    apart from blanks in front, the name of a block, that is, repeats a line. *)
Definition left_out (bs : list cblock) (x : line) : Prop :=
  l_text x = []
  \/ (In (l_type x) [DWeak; DGlobl] /\ exists b g, In b bs /\ Forall (fun c => c = 32 \/ c = 9) g /\ l_text x = g ++ txt (b_name b)).
(** The lines of a file after it is cut into blocks: lines with flags for the tool are
    emptied. *)
Definition kept (x y : line) : Prop :=
  y = x \/ (l_type x = DKpflags /\ l_text y = [] /\ l_num y = l_num x /\ l_type y = l_type x /\ l_sect y = l_sect x).
