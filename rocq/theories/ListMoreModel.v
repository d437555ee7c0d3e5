(** The functions of the linked lists no tool uses: replacing, joining and cutting.
    /repo/src/include/list.h:111-118, 205-254.  Definitions only. *)
From Verif Require Import Base TextModel ListModel.
Open Scope list_scope.

(** list_replace, 111-118 *)
Definition list_replace (old new : Z) (h : heap) : res heap :=
  do n <- next old h; do h1 <- set_next new n h;
  do n <- next new h1; do h2 <- set_prev n new h1;
  do p <- prev old h2; do h3 <- set_prev new p h2;
  do p <- prev new h3; set_next p new h3.
(** __list_cut_position, 205-215 *)
Definition list_cut_position (l head entry : Z) (h : heap) : res heap :=
  do new_first <- next entry h;
  do f <- next head h; do h1 <- set_next l f h;
  do f <- next l h1; do h2 <- set_prev f l h1;
  do h3 <- set_prev l entry h2;
  do h4 <- set_next entry l h3;
  do h5 <- set_next head new_first h4;
  set_prev new_first head h5.
(** __list_splice, 217-229 *)
Definition splice_between (l p n : Z) (h : heap) : res heap :=
  do first <- next l h;
  do last <- prev l h;
  do h1 <- set_prev first p h;
  do h2 <- set_next p first h1;
  do h3 <- set_next last n h2;
  set_prev n last h3.
(** list_splice, 236-241; list_splice_tail, 248-253 *)
Definition list_splice (l head : Z) (h : heap) : res heap :=
  do e <- list_empty l h; if e then Ok h else do n <- next head h; splice_between l head n h.
Definition list_splice_tail (l head : Z) (h : heap) : res heap :=
  do e <- list_empty l h; if e then Ok h else do p <- prev head h; splice_between l p head h.
