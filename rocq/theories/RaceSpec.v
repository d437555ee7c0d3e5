(** Vocabulary for the statements about processes that run while the tool looks at them. *)
From Verif Require Import Base HoleModel HoleSpec RaceModel.

(** Process numbers are unique, every process has an image of its own, no image is new. *)
Definition well (w : world) : Prop :=
  NoDup (map fst (w_tasks w)) /\ NoDup (map snd (w_tasks w)) /\
  forall p i, In (p, i) (w_tasks w) -> (i < w_next w)%nat.
(** No process comes to share the image of another. *)
Definition no_sharing (env : list (list act)) : Prop :=
  forall l p q, In l env -> ~ In (AShare p q) l.
(** The process [pid] does nothing in [l]. *)
Definition quiet (pid : Z) (l : list act) : Prop := forall a, In a l -> actor a <> pid.

(** What the tool has is of the process as it is: both descriptors belong to its image, the
    map read is its map, and it is stopped. *)
Definition current (pid : Z) (w : world) (t : tool) : Prop :=
  exists i, image_of pid (w_tasks w) = Some i /\ t_maps t = Some i /\ t_mem t = Some i /\
            t_read t = w_maps w i /\ t_held t = true.

(** The requests are for objects found in the map, sizes as computed by the engine, none
    near the edge of the reach (C13, C15). *)
Fixpoint fits (pg D : Z) (maps : list (Z * Z)) (sp : space) (l : list request) : Prop :=
  match l with
  | [] => True
  | r :: l' =>
      (exists mask, pick mask maps <> [] /\
         rq_prev r = previous_hole (pick mask (prev_ids pg 0 0 None maps)) /\
         rq_os r = first_start (pick mask maps) /\ rq_oe r = last_end (pick mask maps)) /\
      rq_oe r - rq_os r <= D /\ size_ok pg D (rq_sz r) /\ edge_clear D (sp_holes sp) (rq_oe r) (rq_sz r) /\
      fits pg D maps (snd (place pg D sp r)) l'
  end.
