(** Vocabulary for statements about memory maps, gaps and places for patches. *)
From Verif Require Import Base HoleModel.

(** No range of [used] contains [x]. *)
Definition unmapped (used : list (Z * Z)) (x : Z) : Prop :=
  forall s e, In (s, e) used -> ~ (s <= x < e).

(** The kernel's listing: page aligned, non-empty, in increasing order, not
    overlapping, from [lo] on, below 2^64. *)
Fixpoint maps_ok (pg lo : Z) (maps : list (Z * Z)) : Prop :=
  match maps with
  | [] => True
  | (s, e) :: r => lo <= s /\ s < e /\ e + pg < 2 ^ 64 /\ s mod pg = 0 /\ e mod pg = 0 /\ maps_ok pg e r
  end.

Definition in_hole (h : hole) (x : Z) : Prop := hs h <= x < he h.

(** The gaps are in order and do not overlap; one that still has room is a page away
    from the next. *)
Fixpoint holes_sorted (pg lo : Z) (l : list hole) : Prop :=
  match l with
  | [] => True
  | h :: r => lo <= hs h /\ hs h <= he h /\
              (if he h =? hs h then he h else he h + pg) + pg < 2 ^ 64 /\ hs h mod pg = 0 /\ he h mod pg = 0 /\
              holes_sorted pg (if he h =? hs h then he h else he h + pg) r
  end.

(** All of it: sorted, structures distinct, and each address of a gap is at least a
    page away from anything in use. *)
Record space_ok (pg : Z) (sp : space) : Prop := {
  so_sorted : holes_sorted pg pg (sp_holes sp);
  so_ids : NoDup (map hid (sp_holes sp));
  so_fresh : forall h, In h (sp_holes sp) -> (hid h < sp_fresh sp)%nat;
  so_free : forall h x y, In h (sp_holes sp) -> in_hole h x -> x - pg <= y <= x + pg ->
     unmapped (sp_used sp) y }.

(** The object's extent [os, oe) relative to the gap [prev] remembered for it: that gap
    ends before the object does, all later gaps start after the object starts. *)
Definition object_ok (pg D : Z) (holes : list hole) (prev : option nat) (os oe : Z) : Prop :=
  (0 <= os /\ os < oe /\ oe < 2 ^ 64 /\ oe - os <= D /\ os mod pg = 0 /\ oe mod pg = 0) /\
  forall id, prev = Some id -> exists l p r, holes = l ++ p :: r /\ hid p = id /\
    (if he p =? hs p then he p else he p + pg) <= oe /\ forall h, In h r -> os <= hs h.

(** No gap below the object ends so close to the limit of the reach that the part of
    it within reach is smaller than the patch. *)
Definition edge_clear (D : Z) (holes : list hole) (oe sz : Z) : Prop :=
  forall h, In h holes -> hs h < he h -> he h <= oe -> oe - he h <= D - sz -> oe - he h <= D - 2 * sz.

(** An object made of some of the mappings. *)
Fixpoint pick {X : Type} (mask : list bool) (l : list X) : list X :=
  match mask, l with
  | b :: m, x :: r => if b then x :: pick m r else pick m r
  | _, _ => []
  end.
Definition first_start (l : list (Z * Z)) : Z := match l with [] => 0 | (s, _) :: _ => s end.
Fixpoint last_end (l : list (Z * Z)) : Z :=
  match l with [] => 0 | [(_, e)] => e | _ :: r => last_end r end.

(** Patch sizes and reach: multiples of the page size, patch no larger than the
    reach. *)
Definition size_ok (pg D sz : Z) : Prop :=
  D mod pg = 0 /\ sz mod pg = 0 /\ 0 < sz <= D /\ D < 2 ^ 47.

(** The process right after its memory map has been read. *)
Definition start_space (pg : Z) (maps : list (Z * Z)) : space :=
  {| sp_holes := gaps pg 0 0 maps; sp_fresh := length maps; sp_used := maps |}.

(** States reachable by placing patches, for objects that were found in the map and
    sizes as computed by the engine, none of them near the edge. *)
Inductive placed (pg D : Z) (maps : list (Z * Z)) : space -> Prop :=
| placed_none : placed pg D maps (start_space pg maps)
| placed_step sp r res sp' mask :
    placed pg D maps sp ->
    pick mask maps <> [] ->
    rq_prev r = previous_hole (pick mask (prev_ids pg 0 0 None maps)) ->
    rq_os r = first_start (pick mask maps) -> rq_oe r = last_end (pick mask maps) ->
    rq_oe r - rq_os r <= D -> size_ok pg D (rq_sz r) -> edge_clear D (sp_holes sp) (rq_oe r) (rq_sz r) ->
    place pg D sp r = (res, sp') ->
    placed pg D maps sp'.

(** Ranges pairwise at least a page apart. *)
Definition apart (pg : Z) (a b : Z * Z) : Prop := snd a + pg <= fst b \/ snd b + pg <= fst a.
