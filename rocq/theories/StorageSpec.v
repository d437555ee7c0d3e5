(** What the store should do, independent of its code. *)
From Coq Require Import String.
From Verif Require Import Base BaseProofs RbModel StorageModel.
Open Scope list_scope.

(** A patch file with a good outside: magic, declared size inside the file, an ELF
    header of a relocatable 64-bit object inside the file. *)
Definition well_formed (d : list Z) : Prop :=
  slice d 0 8 = Some (str "KPATCH1" ++ [0]) /\
  exists total koff tb kb,
    slice d 160 4 = Some tb /\ le_val tb = total /\ total <= zlen d /\
    slice d 152 4 = Some kb /\ le_val kb = koff /\ koff + 64 <= zlen d /\
    slice d koff 4 = Some [127; 69; 76; 70] /\
    slice d (koff + 16) 2 = Some [1; 0] /\
    slice d (koff + 58) 2 = Some [64; 0].

(** [d'] is [d] with the four bytes of the level field replaced. *)
Definition leveled (d : list Z) (lv : Z) (d' : list Z) : Prop :=
  length d' = length d /\ slice d' 192 4 = Some (le_bytes 4 lv) /\
  forall i, (i < 192 \/ 196 <= i)%nat -> nth i d' 0 = nth i d 0.

(** Can be opened as a patch at all. *)
Definition candidate (fs : fsys) (path d : list Z) : Prop :=
  fs_file fs path = Some d /\ 504 <= zlen d.

(** [d] is the patch the directory holds for [bid]. *)
Inductive stored (fs : fsys) (bid : list Z) : list Z -> Prop :=
| via_latest d d' s lv :
    candidate fs (bid ++ str "/latest/kpatch.bin") d -> well_formed d ->
    fs_link fs (bid ++ str "/latest") = Some s -> 0 < zlen s < 32 ->
    atoi (upto_nul s) = lv -> 0 <= lv -> leveled d lv d' ->
    stored fs bid d'
| via_plain d :
    (forall d0, ~ candidate fs (bid ++ str "/latest/kpatch.bin") d0) ->
    candidate fs (bid ++ str ".kpatch") d -> well_formed d ->
    stored fs bid d.

(** File contents are bytes. *)
Definition fs_ok (fs : fsys) : Prop := forall p d, fs_file fs p = Some d -> bytes_ok d.
(** Build ids as kpatch_get_buildid makes them: no NUL, at most 40 characters. *)
Definition bid_ok (bid : list Z) : Prop := str_ok bid /\ zlen bid <= 40.

(** What the two names of [bid] say when only stat is used. *)
Inductive stat_stored (fs : fsys) (bid : list Z) : have_res -> Prop :=
| st_latest n s : fs_stat fs (bid ++ str "/latest/kpatch.bin") = SSize n ->
    fs_link fs (bid ++ str "/latest") = Some s -> 0 < zlen s < 32 ->
    0 <= atoi (upto_nul s) -> stat_stored fs bid (HFound n (atoi (upto_nul s)))
| st_plain n : (forall m, fs_stat fs (bid ++ str "/latest/kpatch.bin") <> SSize m) ->
    fs_stat fs (bid ++ str ".kpatch") = SSize n -> stat_stored fs bid (HFound n (-1))
| st_none : (forall m, fs_stat fs (bid ++ str "/latest/kpatch.bin") <> SSize m) ->
    fs_stat fs (bid ++ str ".kpatch") = SNoent -> stat_stored fs bid HNotFound.
