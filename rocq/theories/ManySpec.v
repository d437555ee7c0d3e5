(** Patches of several files of one process. *)
From Coq Require Import Permutation.
From Verif Require Import Base RemoteModel JumpModel EngineModel EngineSpec.

(** A file of the process with the patch it gets: the patch, where its table is, how
    many entries it has, the object, where the region goes, and how the patch is
    labelled. *)
Record item := { i_p : patch; i_off : Z; i_n : nat; i_o : obj; i_base : Z; i_id : list Z; i_bid : list Z }.

Section Many.
Variable A : arch.
Variables jent pg : Z.

(** What the patch may change: its region and the entries of the functions it replaces. *)
Definition area (t : item) (x : Z) : Prop :=
  in_range x (i_base t) (region_size A jent pg (i_p t) (i_off t) (i_n t)) \/ replaced_byte A jent pg (i_p t) (i_off t) (i_n t) (i_base t) x.
Definition i_scene (t : item) : Prop := scene A jent pg (i_p t) (i_off t) (i_n t) (i_o t) (i_base t).
(** Named, and with a table that is ended. *)
Definition i_named (t : item) : Prop :=
  labelled (p_hdr (i_p t)) (i_id t) (i_bid t) /\
  forall img jt, p_link (i_p t) (i_base t) (region_hdr A jent pg (i_p t) (i_off t) (i_n t)) = Some (img, jt) ->
    table_ok img (i_off t) (i_n t).
(** No two of them change the same byte. *)
Definition apart (l : list item) : Prop := ForallOrdPairs (fun a b => forall x, area a x -> ~ area b x) l.

(** The objects are patched one after the other: what each gave and what it became. *)
Inductive in_turn (fuel : nat) : list obj -> st -> list Z -> list obj -> st -> Prop :=
| it_nil s : in_turn fuel [] s [] [] s
| it_cons o s k o' s1 r ks r' s2 : patch_object A jent pg fuel o s = (Ret k, o', s1) ->
    in_turn fuel r s1 ks r' s2 -> in_turn fuel (o :: r) s (k :: ks) (o' :: r') s2.

(** Patches are cancelled by later runs of the tool, one after the other. *)
Inductive cancelled (fuel : nat) : list item -> st -> st -> Prop :=
| ca_nil s : cancelled fuel [] s s
| ca_cons t r s s1 s2 : unpatch_object A pg fuel (i_bid t) (i_id t) (i_base t) (quiet s) = (Ret 1, s1) ->
    cancelled fuel r s1 s2 -> cancelled fuel (t :: r) s s2.
End Many.
