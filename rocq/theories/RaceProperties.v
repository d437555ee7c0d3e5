(** C138: the process goes on running, executes other programs or exits and gives its number
    to another while the tool looks at it. *)
From Verif Require Import Base HoleModel HoleSpec RaceModel RaceSpec RaceProofs.

(** A process with the map of HoleProperties, another one, and what they may do. *)
Definition r_maps : list (Z * Z) :=
  [(0x400000, 0x401000); (0x401000, 0x403000); (0x600000, 0x700000);
   (0x7f0000000000, 0x7f0000200000); (0x7f0000210000, 0x7f0000211000); (0x7ffc00000000, 0x7ffc00021000)].
Definition r_other : list (Z * Z) := [(0x10000, 0x20000); (0x7f1100000000, 0x7f1100200000)].
Definition r_world : world :=
  {| w_tasks := [(100, 0%nat); (101, 1%nat)]; w_maps := fun i => if Nat.eqb i 0 then r_maps else r_other; w_next := 2 |}.
(** A patch of two pages for the library, the fourth mapping. *)
Definition r_req : request :=
  {| rq_prev := Some 2%nat; rq_os := 0x7f0000000000; rq_oe := 0x7f0000200000; rq_sz := 0x2000; rq_mmap_ok := true |}.
Lemma r_fits : maps_ok 4096 0 r_maps /\ fits 4096 dist_x86 r_maps (start_space 4096 r_maps) [r_req].
Proof.
  split; [cbn; repeat split; lia|]. cbn [fits]. split; [|split; [|split; [|split]]].
  - exists [false; false; false; true; false; false]. split; [discriminate|]. repeat split.
  - cbn. unfold dist_x86. lia.
  - unfold size_ok, dist_x86. cbn. repeat split; lia.
  - intros h Hi. vm_compute in Hi. unfold dist_x86.
    repeat (destruct Hi as [<-|Hi]; [cbn; lia|]). destruct Hi.
  - exact I.
Qed.
Lemma r_well : well r_world.
Proof.
  split; [|split].
  - repeat constructor; cbn; intuition congruence.
  - repeat constructor; cbn; intuition congruence.
  - cbn. intros p i [E|[E|[]]]; injection E as <- <-; lia.
Qed.

(** Unpatching: whatever the processes do, when the tool comes to take the patch away, the
    process is stopped, both descriptors belong to the image it has, and the map that was
    read is its present map.  (If it has executed another program since the map was opened,
    or exited and given its number away, the operation fails.) *)
Theorem C138_unpatch : forall pg D pid env w w' t', well w -> no_sharing env ->
  run pg D pid env unpatch_steps w tool0 = (true, w', t') -> current pid w' t'.
Proof. intros pg D pid env w w' t' W N H. exact (proj1 (proj2 (unpatch_current pg D pid env w w' t' W N H))). Qed.
Print Assumptions C138_unpatch.

(** It fails, for instance, if the process executes another program between the opening of
    the map and the attaching, and goes on if it only maps more. *)
Example C138_unpatch_hyps :
  well r_world /\ no_sharing [[]; []; [AExec 100 r_other]] /\ no_sharing [[]; []; [AMap 100 r_other; AExit 101]] /\
  fst (fst (run 4096 dist_x86 100 [[]; []; [AExec 100 r_other]] unpatch_steps r_world tool0)) = false /\
  fst (fst (run 4096 dist_x86 100 [[]; []; [AExit 100; AFork 100 r_other]] unpatch_steps r_world tool0)) = false /\
  fst (fst (run 4096 dist_x86 100 [[]; []; [AMap 100 r_other; AExit 101]; [AMap 100 r_maps]] unpatch_steps r_world tool0)) = true /\
  t_read (snd (run 4096 dist_x86 100 [[]; []; [AMap 100 r_other; AExit 101]; [AMap 100 r_maps]] unpatch_steps r_world tool0)) = r_other.
Proof.
  split; [exact r_well|]. split; [|split].
  - intros l p q [<-|[<-|[<-|[]]]]; cbn; intuition discriminate.
  - intros l p q [<-|[<-|[<-|[]]]]; cbn; intuition discriminate.
  - vm_compute. repeat split.
Qed.

(** Patching a process that has just been started ([send]: by the wrapper of execve): the
    same, and no mapping of the process is replaced by a patch, whether patching succeeds or
    not.  The requests are for objects of the map read, as in C13 and C15. *)
Theorem C138_started : forall pg D pid send lx lr reqs env w ok w' t', page_ok pg -> well w -> no_sharing env ->
  run pg D pid env (patch_steps true send lx lr ++ [TPlace reqs; TWrite]) w tool0 = (ok, w', t') ->
  maps_ok pg 0 (t_read t') -> fits pg D (t_read t') (start_space pg (t_read t')) reqs ->
  t_hit t' = [] /\ (ok = true -> current pid w' t').
Proof.
  intros pg D pid send lx lr reqs env w ok w' t' Hpg W N. apply op_safe; [exact Hpg|exact N|destruct send; reflexivity|].
  intros w1 t1 R. exact (started_current pg D pid send lx lr env w w1 t1 W N R).
Qed.
Print Assumptions C138_started.

Example C138_started_hyps :
  page_ok 4096 /\ well r_world /\
  (let '(ok, w, t) := run 4096 dist_x86 100 [[]; []; []; [AMap 100 r_other]; [AExec 100 []]; [AExit 100]; [AMap 101 []]]
      (patch_steps true true r_other r_maps ++ [TPlace [r_req]; TWrite]) r_world tool0 in
   ok = true /\ t_read t = r_maps /\ t_hit t = [] /\ image_of 100 (w_tasks w) = Some 2%nat) /\
  (let '(ok, w, t) := run 4096 dist_x86 100 [[]; []; []; [AMap 100 r_other]]
      (patch_steps true false [] r_maps ++ [TPlace [r_req]; TWrite]) r_world tool0 in
   ok = true /\ t_read t = r_maps /\ t_hit t = [] /\ image_of 100 (w_tasks w) = Some 0%nat).
Proof. split; [exists 12; split; [lia|reflexivity]|]. split; [exact r_well|]. vm_compute. repeat split. Qed.

(** Patching a process that is running.  Partial: the process must do nothing between the
    reading of its map and the attaching (the fourth and fifth stretches of [env]); see the
    refutations below. *)
Theorem C138_running_partial : forall pg D pid send lx lr reqs env w ok w' t', page_ok pg -> well w -> no_sharing env ->
  quiet pid (nth 3 env []) -> quiet pid (nth 4 env []) ->
  run pg D pid env (patch_steps false send lx lr ++ [TPlace reqs; TWrite]) w tool0 = (ok, w', t') ->
  maps_ok pg 0 (t_read t') -> fits pg D (t_read t') (start_space pg (t_read t')) reqs ->
  t_hit t' = [] /\ (ok = true -> current pid w' t').
Proof.
  intros pg D pid send lx lr reqs env w ok w' t' Hpg W N Q3 Q4. apply op_safe; [exact Hpg|exact N|reflexivity|].
  intros w1 t1 R. exact (running_current pg D pid send lx lr env w w1 t1 W N Q3 Q4 R).
Qed.
Print Assumptions C138_running_partial.

Definition r_env : list (list act) := [[AMap 100 r_other]; [AMap 100 r_maps]; []; [AExit 101]; [AFork 101 r_other]; [AMap 100 r_other]].
Example C138_running_hyps :
  page_ok 4096 /\ well r_world /\ no_sharing r_env /\ quiet 100 (nth 3 r_env []) /\ quiet 100 (nth 4 r_env []) /\
  (let '(ok, w, t) := run 4096 dist_x86 100 r_env (patch_steps false false [] [] ++ [TPlace [r_req]; TWrite]) r_world tool0 in
   ok = true /\ t_read t = r_maps /\ t_hit t = []) /\
  maps_ok 4096 0 r_maps /\ fits 4096 dist_x86 r_maps (start_space 4096 r_maps) [r_req].
Proof.
  split; [exists 12; split; [lia|reflexivity]|]. split; [exact r_well|].
  split; [intros l p q Hl; repeat (destruct Hl as [<-|Hl]; [cbn; intuition discriminate|]); destruct Hl|].
  split; [intros a [<-|[]]; cbn; lia|]. split; [intros a [<-|[]]; cbn; lia|].
  split; [vm_compute; repeat split|exact r_fits].
Qed.

(** The full statement is false: a process that is running maps two pages after its map has
    been read and before it is attached to.  The patch is then mapped over them (MAP_FIXED);
    patching succeeds, and what the process had there is lost. *)
Definition r_more : list (Z * Z) :=
  [(0x400000, 0x401000); (0x401000, 0x403000); (0x600000, 0x700000); (0x7f0000000000, 0x7f0000200000);
   (0x7f0000201000, 0x7f0000203000); (0x7f0000210000, 0x7f0000211000); (0x7ffc00000000, 0x7ffc00021000)].
Theorem C138_running_mapped_over_refuted : exists pid reqs env w w' t' m,
  well w /\ no_sharing env /\
  (forall l a, In l env -> In a l -> exists maps, a = AMap pid maps /\ incl (w_maps w 0) maps /\ maps_ok 4096 0 maps) /\
  image_of pid (w_tasks w) = Some 0%nat /\
  run 4096 dist_x86 pid env (patch_steps false false [] [] ++ [TPlace reqs; TWrite]) w tool0 = (true, w', t') /\
  maps_ok 4096 0 (t_read t') /\ fits 4096 dist_x86 (t_read t') (start_space 4096 (t_read t')) reqs /\
  In m (t_hit t') /\ (forall x, fst m <= x < snd m -> unmapped (w_maps w' 0) x).
Proof.
  exists 100, [r_req], [[]; []; []; [AMap 100 r_more]], r_world. eexists. eexists. exists (0x7f0000201000, 0x7f0000203000).
  split; [exact r_well|]. split; [intros l p q Hl; repeat (destruct Hl as [<-|Hl]; [cbn; intuition discriminate|]); destruct Hl|].
  split.
  { intros l a Hl Ha. repeat (destruct Hl as [<-|Hl]; [try destruct Ha as [<-|[]]; try destruct Ha|]); [|destruct Hl].
    exists r_more. split; [reflexivity|]. split; [|cbn; repeat split; lia].
    cbn. intros x Hx. unfold r_more. cbn. unfold r_maps in Hx. cbn in Hx. tauto. }
  split; [reflexivity|]. split; [vm_compute; reflexivity|].
  split; [exact (proj1 r_fits)|]. split; [exact (proj2 r_fits)|]. split; [left; reflexivity|].
  intros x Hx s e Hi. cbn in Hi, Hx.
  repeat (destruct Hi as [E|Hi]; [injection E as <- <-; lia|]). destruct Hi.
Qed.
Print Assumptions C138_running_mapped_over_refuted.

(** What the process loses, whenever and in whatever image patches are mapped: exactly the
    addresses that patches get, ranges of the sizes asked for; all of them in mappings counted
    as hit.  No other image is touched. *)
Theorem C138_lost : forall pg D pid reqs w t ok w' t' i, image_of pid (w_tasks w) = Some i ->
  tstep_do pg D pid (TPlace reqs) w t = (ok, w', t') ->
  exists rs, (forall a b, In (a, b) rs -> exists r, In r reqs /\ b = a + rq_sz r) /\
    (ok = true -> map (fun q => snd q - fst q) rs = map rq_sz reqs) /\
    (forall x, unmapped (w_maps w' i) x <-> unmapped (w_maps w i) x \/ exists a b, In (a, b) rs /\ a <= x < b) /\
    (forall x, ~ unmapped (w_maps w i) x -> unmapped (w_maps w' i) x -> exists m, In m (t_hit t') /\ fst m <= x < snd m) /\
    (forall j, j <> i -> w_maps w' j = w_maps w j) /\ w_tasks w' = w_tasks w.
Proof.
  intros pg D pid reqs w t ok w' t' i E H. cbn [tstep_do] in H. rewrite E in H.
  destruct (place_all _ _ _ _ _ _) as [[o own] hit] eqn:P. injection H as <- <- <-.
  destruct (place_all_lost _ _ _ _ _ _ _ _ _ P) as (rs & R1 & R2 & R3 & _ & R5). exists rs. cbn [w_maps w_tasks t_hit].
  unfold set_image. rewrite Nat.eqb_refl. split; [exact R1|]. split; [exact R2|]. split; [exact R3|].
  split; [intros x N U; destruct (R5 x N U) as (m & Hm & B); exists m; split; [apply in_or_app; right; exact Hm|exact B]|].
  split; [|reflexivity]. intros j Nj. destruct (Nat.eqb_spec j i); [contradiction|]. reflexivity.
Qed.
Print Assumptions C138_lost.
(** Here the patch hits the first of two pages; the second stays. *)
Example C138_lost_hyps :
  let t := {| t_maps := Some 0%nat; t_mem := Some 0%nat; t_held := true; t_read := r_maps; t_hit := [] |} in
  let w := {| w_tasks := w_tasks r_world; w_maps := fun _ => [(0x7f0000202000, 0x7f0000204000)]; w_next := 2 |} in
  image_of 100 (w_tasks w) = Some 0%nat /\
  (let '(ok, w', t') := tstep_do 4096 dist_x86 100 (TPlace [r_req]) w t in
   ok = true /\ w_maps w' 0%nat = [(0x7f0000203000, 0x7f0000204000)] /\ t_hit t' = [(0x7f0000202000, 0x7f0000204000)]).
Proof. vm_compute. repeat split. Qed.

(** Or it executes another program: the patch is mapped and written into that one, where the
    build ids that were compared are not. *)
Theorem C138_running_exec_refuted : exists pid reqs env w w' t' i j,
  well w /\ no_sharing env /\
  image_of pid (w_tasks w) = Some i /\ image_of pid (w_tasks w') = Some j /\ i <> j /\
  run 4096 dist_x86 pid env (patch_steps false false [] [] ++ [TPlace reqs; TWrite]) w tool0 = (true, w', t') /\
  t_read t' = w_maps w i /\ t_maps t' = Some i /\ t_mem t' = Some j.
Proof.
  exists 100, [r_req], [[]; []; []; [AExec 100 r_other]], r_world. eexists. eexists. exists 0%nat, 2%nat.
  split; [exact r_well|]. split; [intros l p q Hl; repeat (destruct Hl as [<-|Hl]; [cbn; intuition discriminate|]); destruct Hl|].
  split; [reflexivity|]. split; [|split; [lia|split; [vm_compute; reflexivity|repeat split]]]. reflexivity.
Qed.
Print Assumptions C138_running_exec_refuted.

(** Or it exits and another process gets its number: that one is patched.  The open
    descriptor of the map ("locking") does not keep the number (kpatch_process.c:60-65 says
    it keeps the process). *)
Theorem C138_running_number_refuted : exists pid reqs env w w' t' i j,
  well w /\ no_sharing env /\ In (AExit pid) (concat env) /\
  image_of pid (w_tasks w) = Some i /\ image_of pid (w_tasks w') = Some j /\ i <> j /\ alive w' i = false /\
  run 4096 dist_x86 pid env (patch_steps false false [] [] ++ [TPlace reqs; TWrite]) w tool0 = (true, w', t') /\
  t_read t' = w_maps w i /\ t_mem t' = Some j.
Proof.
  exists 100, [r_req], [[]; []; []; [AExit 100; AFork 100 r_other]], r_world. eexists. eexists. exists 0%nat, 2%nat.
  split; [exact r_well|]. split; [intros l p q Hl; repeat (destruct Hl as [<-|Hl]; [cbn; intuition discriminate|]); destruct Hl|].
  split; [left; reflexivity|].
  split; [reflexivity|]. split; [|split; [lia|split; [|split; [vm_compute; reflexivity|repeat split]]]]; reflexivity.
Qed.
Print Assumptions C138_running_number_refuted.

(** With an image shared by two processes (vfork, clone) unpatching is not safe either: the
    other process changes the map while this one is stopped. *)
Theorem C138_unpatch_shared_refuted : exists pid env w w' t' i,
  well w /\ run 4096 dist_x86 pid env (unpatch_steps ++ [TWrite]) w tool0 = (true, w', t') /\
  image_of pid (w_tasks w') = Some i /\ t_read t' <> w_maps w' i.
Proof.
  exists 100, [[AShare 102 100]; []; []; []; [AMap 102 r_other]], r_world. eexists. eexists. exists 0%nat.
  split; [exact r_well|]. split; [vm_compute; reflexivity|]. split; [reflexivity|]. cbn. discriminate.
Qed.
Print Assumptions C138_unpatch_shared_refuted.

(** info (the process is not stopped): the map that is read and the memory in which patches
    are looked for belong to one and the same image, the one the process has when its map is
    read. *)
Theorem C138_info : forall pg D pid env w w' t', well w -> no_sharing env ->
  run pg D pid env info_steps w tool0 = (true, w', t') ->
  exists i, image_of pid (w_tasks w') = Some i /\ t_maps t' = Some i /\ t_mem t' = Some i /\ t_read t' = w_maps w' i.
Proof.
  intros pg D pid env w w' t' W N H.
  destruct (running_read pg D pid env [] w w' t' W N H) as (i & w1 & t1 & _ & E1 & E2 & E3 & E4 & _ & _ & H1).
  cbn in H1. inversion H1; subst. exists i. repeat split; assumption.
Qed.
Print Assumptions C138_info.
Example C138_info_hyps :
  fst (fst (run 4096 dist_x86 100 [[]; [AMap 100 r_other]; [AMap 100 r_maps]] info_steps r_world tool0)) = true /\
  fst (fst (run 4096 dist_x86 100 [[]; [AExec 100 r_other]] info_steps r_world tool0)) = false.
Proof. vm_compute. split; reflexivity. Qed.
