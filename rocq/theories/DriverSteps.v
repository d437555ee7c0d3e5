From Verif Require Import Base BaseProofs DriverModel DriverSpec.

(** Parts that do no step of their own. *)
Definition quiet {A} (m : D A) : Prop := forall s, steps (d_log (snd (m s))) = steps (d_log s).
Lemma quiet_ret A (a : A) : quiet (ret a).
Proof. intros s. reflexivity. Qed.
Lemma quiet_bind A B (m : D A) (f : A -> D B) : quiet m -> (forall a, quiet (f a)) -> quiet (bind m f).
Proof. intros M F s. unfold bind. specialize (M s). destruct (m s) as [a s1]. rewrite (F a s1). exact M. Qed.
Lemma quiet_set_maps x : quiet (set_maps x). Proof. intros s. reflexivity. Qed.
Lemma quiet_set_mem x : quiet (set_mem x). Proof. intros s. reflexivity. Qed.
Lemma quiet_set_coro x : quiet (set_coro x). Proof. intros s. reflexivity. Qed.
Lemma quiet_set_unw x : quiet (set_unw x). Proof. intros s. reflexivity. Qed.
Lemma quiet_set_thr x : quiet (set_thr x). Proof. intros s. reflexivity. Qed.
Lemma quiet_get A (f : dst -> A) : quiet (get f). Proof. intros s. reflexivity. Qed.
Lemma steps_app a b : steps (a ++ b) = steps a ++ steps b.
Proof. apply flat_map_app. Qed.
Lemma quiet_open : quiet open_.
Proof. intros s. cbn. rewrite steps_app. apply app_nil_r. Qed.
Lemma quiet_close id : quiet (close_ id).
Proof. intros s. cbn. rewrite steps_app. apply app_nil_r. Qed.
Lemma quiet_close_opt o : quiet (close_opt o).
Proof. destruct o; [apply quiet_close|apply quiet_ret]. Qed.
Lemma quiet_ask orc : quiet (ask orc). Proof. intros s. reflexivity. Qed.
#[local] Hint Resolve quiet_ret quiet_set_maps quiet_set_mem quiet_set_coro quiet_set_unw quiet_set_thr quiet_get
  quiet_open quiet_close quiet_close_opt quiet_ask : quiet.
Ltac q := repeat first [ apply quiet_bind; [|intros ?] | progress auto with quiet
  | match goal with |- quiet (if ?b then _ else _) => destruct b end
  | match goal with |- quiet (match ?b with _ => _ end) => destruct b end ].
Lemma quiet_close_all l : quiet (close_all l).
Proof. induction l; cbn [close_all]; q. Qed.
#[local] Hint Resolve quiet_close_all : quiet.
Lemma quiet_detach : quiet detach. Proof. unfold detach. q. Qed.
Lemma quiet_mem_open orc : quiet (mem_open orc). Proof. unfold mem_open. q. Qed.
Lemma quiet_threads orc n : quiet (attach_threads orc n).
Proof. induction n; cbn [attach_threads]; q. Qed.
#[local] Hint Resolve quiet_detach quiet_mem_open quiet_threads : quiet.
Lemma quiet_attempts orc j sd n f : quiet (attempts orc j sd f n).
Proof. revert f. induction n as [|n IH]; intros f; cbn [attempts]; q. Qed.
#[local] Hint Resolve quiet_attempts : quiet.
Lemma quiet_attach orc j sd : quiet (attach orc j sd). Proof. unfold attach. q. Qed.
Lemma quiet_init orc j : quiet (init orc j). Proof. unfold init. q. Qed.
Lemma quiet_free : quiet free. Proof. unfold free. q. Qed.
Lemma quiet_drop orc l : quiet (drop_threads orc l).
Proof. induction l; cbn [drop_threads]; q. Qed.
#[local] Hint Resolve quiet_attach quiet_drop : quiet.
Lemma quiet_kickstart orc : quiet (kickstart orc). Proof. unfold kickstart. q. Qed.
#[local] Hint Resolve quiet_kickstart : quiet.
Lemma quiet_libs orc j sd : quiet (load_libraries orc j sd). Proof. unfold load_libraries. q. Qed.
Lemma quiet_kick orc j sd : quiet (kick orc j sd). Proof. unfold kick. q. Qed.

(** A sequence of steps that goes on while the result is good. *)
Definition stops (x : step) (v : Z) : bool := match x with SLookup => v <=? 0 | _ => v <? 0 end.
Fixpoint chain (names : list step) (F : list (step * Z) -> Z -> Prop) (L : list (step * Z)) (r : Z) : Prop :=
  match names with
  | [] => F L r
  | x :: names' => exists v L', L = (x, v) :: L' /\
      (stops x v = true /\ L' = [] /\ r = v \/ stops x v = false /\ chain names' F L' r)
  end.
(** [m] adds the steps [L]. *)
Definition does {A} (m : D A) (P : list (step * Z) -> A -> Prop) : Prop :=
  forall s, exists L, steps (d_log (snd (m s))) = steps (d_log s) ++ L /\ P L (fst (m s)).
Lemma does_step (st : Z -> bool) x : (forall v, st v = stops x v) -> forall (m : D Z) names F k,
  does m (fun L v => L = [(x, v)]) -> (forall v : Z, does (k v) (chain names F)) ->
  does (bind m (fun v => if st v then ret v else k v)) (chain (x :: names) F).
Proof.
  intros St m names F k M K s. unfold bind. destruct (M s) as (L & E & ->). destruct (m s) as [v s1]. cbn [fst snd] in *.
  rewrite (St v). destruct (stops x v) eqn:S.
  - exists [(x, v)]. split; [exact E|]. cbn [chain]. exists v, []. auto.
  - destruct (K v s1) as (L' & E' & C). exists ((x, v) :: L'). rewrite E', E, <- app_assoc. split; [reflexivity|].
    cbn [chain]. exists v, L'. auto.
Qed.
Lemma does_do orc x : does (do_step orc x) (fun L v => L = [(x, v)]).
Proof. intros s. exists [(x, orc (d_i s))]. cbn. rewrite steps_app. auto. Qed.
Lemma does_done (m : D Z) x : quiet m -> does (bind m (done_step x)) (fun L v => L = [(x, v)]).
Proof.
  intros Q s. unfold bind. specialize (Q s). destruct (m s) as [v s1]. exists [(x, v)].
  cbn in *. rewrite steps_app, Q. auto.
Qed.
Definition patch_names : list step := [SLibs; SKick; SMap; SLookup; SAttach; SCoro; SBefore].
Definition patch_end (L : list (step * Z)) (r : Z) : Prop := exists z, L = [(SApply, r); (SAfter, z)].
(** A body that opens the memory first. *)
Lemma does_mem orc (k : D Z) C : does k C ->
  does (bind (mem_open orc) (fun r => if r <? 0 then ret r else k)) (fun L r => L = [] /\ r < 0 \/ C L r).
Proof.
  intros K s. unfold bind. pose proof (quiet_mem_open orc s) as Q. destruct (mem_open orc s) as [v s1].
  cbn [snd] in Q. destruct (v <? 0) eqn:V.
  - exists []. cbn. rewrite app_nil_r. split; [exact Q|]. left. split; [reflexivity|lia].
  - destruct (K s1) as (L & E & H). exists L. split; [congruence|right; exact H].
Qed.
Lemma patch_does orc j sd : does (patch_body orc j sd)
  (fun L r => L = [] /\ r < 0 \/ chain patch_names patch_end L r).
Proof.
  unfold patch_body. apply does_mem. unfold patch_names.
  eapply (does_step (fun v => v <? 0) SLibs (fun v => eq_refl)); [apply does_done, quiet_libs|intros v1].
  eapply (does_step (fun v => v <? 0) SKick (fun v => eq_refl)); [apply does_done, quiet_kick|intros v2].
  eapply (does_step (fun v => v <? 0) SMap (fun v => eq_refl)); [apply does_do|intros v3].
  apply (does_step (fun v => v <=? 0) SLookup (fun v => eq_refl)); [apply does_do|intros v4].
  eapply (does_step (fun v => v <? 0) SAttach (fun v => eq_refl)); [apply does_done, quiet_attach|intros v5].
  eapply (does_step (fun v => v <? 0) SCoro (fun v => eq_refl)); [apply does_do|intros v6].
  eapply (does_step (fun v => v <? 0) SBefore (fun v => eq_refl)); [apply does_do|intros v7].
  intros x. exists [(SApply, orc (d_i x)); (SAfter, orc (Datatypes.S (d_i x)))].
  cbn. rewrite !steps_app, <- app_assoc. split; [reflexivity|]. eexists. reflexivity.
Qed.
Lemma unpatch_does orc j sd : does (unpatch_body orc j sd)
  (chain [SAttach; SMap; SCoro] (fun L r => L = [(SUnapply, r)])).
Proof.
  unfold unpatch_body.
  eapply (does_step (fun v => v <? 0) SAttach (fun v => eq_refl)); [apply does_done, quiet_attach|intros v1].
  eapply (does_step (fun v => v <? 0) SMap (fun v => eq_refl)); [apply does_do|intros v2].
  eapply (does_step (fun v => v <? 0) SCoro (fun v => eq_refl)); [apply does_do|intros v3].
  apply does_do.
Qed.
Lemma info_does orc : does (info_body orc)
  (fun L r => L = [] /\ r < 0 \/ chain [SMap] (fun L r => L = [(SInfo, r)]) L r).
Proof.
  unfold info_body. apply does_mem.
  eapply (does_step (fun v => v <? 0) SMap (fun v => eq_refl)); [apply does_do|intros v1]. apply does_do.
Qed.

(** The frame. *)
Lemma driver_steps orc j body final P : does body P ->
  let res := driver orc j body final d0 in
  (exists v, v < 0 /\ steps (d_log (snd res)) = [(SInit, v)] /\ fst res = final v) \/
  (exists v L x, 0 <= v /\ P L x /\ steps (d_log (snd res)) = (SInit, v) :: L ++ [(SFree, 0)] /\ fst res = final x).
Proof.
  intros B. cbv zeta.
  pose (Q := fun res : Z * dst => (exists v, v < 0 /\ steps (d_log (snd res)) = [(SInit, v)] /\ fst res = final v) \/
  (exists v L x, 0 <= v /\ P L x /\ steps (d_log (snd res)) = (SInit, v) :: L ++ [(SFree, 0)] /\ fst res = final x)).
  change (Q (driver orc j body final d0)). unfold driver. unfold bind at 1.
  destruct (does_done (init orc j) SInit (quiet_init orc j) d0) as (L0 & E & ->).
  destruct (bind (init orc j) (done_step SInit) d0) as [v s1]. cbn [fst snd] in E. cbn in E.
  destruct (v <? 0) eqn:V.
  - left. exists v. cbn. split; [lia|]. auto.
  - right. unfold bind. destruct (B s1) as (L & E1 & HL). destruct (body s1) as [x s2]. cbn [fst snd] in *.
    pose proof (quiet_free s2) as E2. destruct (free s2) as [u s3]. cbn [snd] in E2.
    exists v, L, x. split; [lia|]. split; [exact HL|]. unfold done_step, bind. cbn.
    rewrite steps_app, E2, E1, E. split; reflexivity.
Qed.

(** How a chain can end. *)
Lemma chain_ends F : forall names L r, chain names F L r ->
  (exists pre t, L = pre ++ t /\ map fst pre = names /\ Forall (fun p => stops (fst p) (snd p) = false) pre /\ F t r) \/
  (exists pre x rest, L = pre ++ [(x, r)] /\ map fst pre ++ x :: rest = names /\
     Forall (fun p => stops (fst p) (snd p) = false) pre /\ stops x r = true).
Proof.
  induction names as [|x names IH]; intros L r C; cbn [chain] in C.
  - left. exists [], L. auto.
  - destruct C as (v & L' & -> & [(S & -> & ->)|(S & C)]).
    + right. exists [], x, names. auto.
    + destruct (IH L' r C) as [(pre & t & -> & M & A & H)|(pre & y & rest & -> & M & A & H)].
      * left. exists ((x, v) :: pre), t. cbn. rewrite M. auto.
      * right. exists ((x, v) :: pre), y, rest. cbn. rewrite M. auto 12.
Qed.
