(** What holds of C04, C55, C56 and C59, which are false as they stand. *)
From Coq Require Import ZArith List Bool Lia ZifyBool ZifyNat.
From Verif Require Import Base BaseProofs RemoteModel JumpSpec JumpModel EngineModel EngineSpec LayoutProofs
  EngineProofs ApplyProofs PeekProofs UnpatchProofs RollbackProofs EngineFinal EngineExamples EngineProperties.
Import ListNotations.
Open Scope Z_scope.

(** An object for which there is nothing to do *)
Definition idle (o : obj) : Prop := o_patch o = None \/ o_is_patch o = true.
Lemma idle_apply A jent pg o s : idle o -> object_apply_patch A jent pg o s = (Ret 0, o, s).
Proof.
  intros I. unfold object_apply_patch, object_apply_patch_with, obind, oget, oret.
  destruct (o_patch o) as [p|] eqn:E; [|reflexivity]. destruct I as [I|I]; [congruence|]. rewrite I. reflexivity.
Qed.
Lemma only_one A jent pg fuel before o after : Forall idle before -> Forall idle after -> forall k s objs' s'',
  apply_patches A jent pg fuel (before ++ o :: after) k s = (Err, objs', s'') ->
  exists o' s', object_apply_patch A jent pg o s = (Err, o', s') /\ snd (object_unapply_patch A pg fuel true o' s') = s''.
Proof.
  intros B F. induction B as [|b before IB B IH]; intros k s objs' s'' H.
  - cbn [app apply_patches] in H. destruct (object_apply_patch A jent pg o s) as [[[z| | | |] o'] s'] eqn:E; try discriminate.
    + exfalso. assert (N : forall j t objs t', apply_patches A jent pg fuel after j t <> (Err, objs, t')).
      { clear -F. induction F as [|a after IA F IH]; intros j t objs t' H; [discriminate|]. cbn [apply_patches] in H. rewrite (idle_apply _ _ _ _ _ IA) in H.
        destruct (apply_patches A jent pg fuel after _ t) as [[r os] u] eqn:E. injection H as -> _ ->. exact (IH _ _ _ _ E). }
      destruct (apply_patches A jent pg fuel after _ s') as [[r os] u] eqn:E'. injection H as -> _ ->. exact (N _ _ _ _ E').
    + exists o', s'. split; [reflexivity|]. destruct (object_unapply_patch A pg fuel true o' s') as [[[z| | | |] o''] u]; try discriminate; injection H as _ <-; reflexivity.
  - cbn [app apply_patches] in H. rewrite (idle_apply _ _ _ _ _ IB) in H.
    destruct (apply_patches A jent pg fuel (before ++ o :: after) _ s) as [[r os] u] eqn:E. injection H as -> _ ->. exact (IH _ _ _ _ E).
Qed.
Lemma quiet_same s : so s = [] -> quiet s = s.
Proof. destruct s as [m x a]. cbn. intros ->. reflexivity. Qed.

(** ** C04, for a process of whose objects only one has a patch.  If patching fails, and the operations of the roll-back succeed, all memory outside the region is as
    before; and so is the region, unless the address the patient gave back was lost. *)
Theorem C04_only_one_partial : forall A jent pg p off n o base, scene A jent pg p off n o base ->
  forall fuel before after s objs' s'', (1 <= fuel)%nat -> file_clean (p_hdr p) ->
  nothing_at (sm s) 0 (region_size A jent pg p off n) -> nothing_at (sm s) base (region_size A jent pg p off n) ->
  Forall idle before -> Forall idle after ->
  (forall o' s', object_apply_patch A jent pg o s = (Err, o', s') -> so s' = []) ->
  apply_patches A jent pg fuel (before ++ o :: after) 0 s = (Err, objs', s'') ->
  (forall x, ~ in_range x base (region_size A jent pg p off n) -> sm s'' x = sm s x) /\
  ((forall o' s', object_apply_patch A jent pg o s = (Err, o', s') -> o_kpta o' <> 0) -> forall x, sm s'' x = sm s x).
Proof.
  intros A jent pg p off n o base SC fuel before after s objs' s'' Hf Hc Hlow Hfree B F Q H.
  destruct (only_one _ _ _ _ _ _ _ B F _ _ _ _ H) as (o' & s' & E & U).
  pose proof (C03_rollback_restores _ _ _ _ _ _ _ _ SC fuel s o' s' Hf Hc Hlow Hfree E) as R. rewrite (quiet_same _ (Q _ _ E)) in R.
  destruct (object_unapply_patch A pg fuel true o' s') as [[r o''] u]. cbn [snd] in U. subst u. destruct R as [R1 R2].
  split; [exact R1|]. intros K. apply R2. left. exact (K _ _ E).
Qed.
Print Assumptions C04_only_one_partial.

(** ** C55, if nothing is mapped in the lowest addresses: however patching and its roll-back fail, what the patient had mapped is mapped, and has the same content if the
    operations of the roll-back succeed. *)
Theorem C55_nothing_low_partial : forall A jent pg p off n o base, scene A jent pg p off n o base ->
  forall fuel s o' s', (1 <= fuel)%nat -> file_clean (p_hdr p) ->
  nothing_at (sm s) 0 (region_size A jent pg p off n) -> nothing_at (sm s) base (region_size A jent pg p off n) ->
  object_apply_patch A jent pg o s = (Err, o', s') ->
  forall x, sm s x <> None -> sm (snd (object_unapply_patch A pg fuel true o' (quiet s'))) x = sm s x.
Proof.
  intros A jent pg p off n o base SC fuel s o' s' Hf Hc Hlow Hfree E x M.
  pose proof (C03_rollback_restores _ _ _ _ _ _ _ _ SC fuel s o' s' Hf Hc Hlow Hfree E) as R.
  destruct (object_unapply_patch A pg fuel true o' (quiet s')) as [[r o''] u]. cbn [snd]. apply (proj1 R).
  intros I. apply M. apply Hfree. exact I.
Qed.
Print Assumptions C55_nothing_low_partial.

(** ** C59, if the tool knows the address: the region is unmapped *)
Theorem C59_known_partial : forall A jent pg p off n o base, scene A jent pg p off n o base ->
  forall fuel s o' s', (1 <= fuel)%nat -> file_clean (p_hdr p) ->
  nothing_at (sm s) 0 (region_size A jent pg p off n) -> nothing_at (sm s) base (region_size A jent pg p off n) ->
  object_apply_patch A jent pg o s = (Err, o', s') -> o_kpta o' <> 0 ->
  forall x, in_range x base (region_size A jent pg p off n) -> sm (snd (object_unapply_patch A pg fuel true o' (quiet s'))) x = None.
Proof.
  intros A jent pg p off n o base SC fuel s o' s' Hf Hc Hlow Hfree E K x I.
  pose proof (C03_rollback_restores _ _ _ _ _ _ _ _ SC fuel s o' s' Hf Hc Hlow Hfree E) as R.
  destruct (object_unapply_patch A pg fuel true o' (quiet s')) as [[r o''] u]. cbn [snd]. rewrite (proj2 R (or_introl K)). apply Hfree. exact I.
Qed.
Print Assumptions C59_known_partial.

(** ** C56.  After a crash the patch can be cancelled exactly if its region is there and already read-only and executable; then all is restored. *)
Theorem C56_when_partial : forall A jent pg p off n o base, scene A jent pg p off n o base ->
  forall fuel fuel' id bid s, (1 <= fuel)%nat -> (n < fuel')%nat -> file_clean (p_hdr p) -> labelled (p_hdr p) id bid ->
  (forall img jt, p_link p base (region_hdr A jent pg p off n) = Some (img, jt) -> table_ok img off n) ->
  nothing_at (sm s) 0 (region_size A jent pg p off n) -> nothing_at (sm s) base (region_size A jent pg p off n) ->
  forall o' s', patch_object A jent pg fuel o s = (Die, o', s') ->
  let '(r, s'') := unpatch_object A pg fuel' bid id base (quiet s') in
  (r = Ret 1 <-> sm s' base <> None /\ sx s' base = true) /\ (r = Ret 1 -> forall x, sm s'' x = sm s x).
Proof.
  intros A jent pg p off n o base SC fuel fuel' id bid s Hf Hf' Hc Hlab Htab Hlow Hfree o' s' HD.
  pose proof (C05_unpatch_after_crash _ _ _ _ _ _ _ _ SC fuel fuel' id bid s Hf Hf' Hc Hlab Htab Hlow Hfree o' s' HD) as U.
  destruct (unpatch_object A pg fuel' bid id base (quiet s')) as [r s''] eqn:E.
  split; [|intros ->; destruct U as [[U _]|[_ U]]; [discriminate|exact U]].
  split.
  - intros ->. unfold unpatch_object, recognise_patch, mem_read, pop, quiet in E. cbn [so sm sx] in E.
    destruct (mread (sm s') base 1024) as [bs|] eqn:Em; [|discriminate].
    cbn [sm sx so] in E. destruct (sx s' base) eqn:X; [|discriminate]. split; [|reflexivity].
    destruct (proj1 (mread_spec _ _ _ _) Em) as [EL ED]. rewrite (ED base ltac:(unfold in_range; lia)). destruct bs; discriminate.
  - intros [M X]. destruct U as [[-> _]|[-> _]]; [|reflexivity]. exfalso.
    set (sz := region_size A jent pg p off n) in *.
    assert (SZ : 0 < sz) by (eapply sz_pos; eauto).
    assert (Ebase : o_find o sz = base) by (apply (sc_base _ _ _ _ _ _ _ _ SC)).
    assert (Hent : forall img jt, p_link p (o_find o sz) (region_hdr A jent pg p off n) = Some (img, jt) -> entries_ok (infos_of img off n) (a_hunk A) (o_find o sz) sz).
    { intros img jt Hl. rewrite Ebase in *. exact (sc_entries _ _ _ _ _ _ _ _ SC img jt Hl). }
    assert (CR : crashed A jent pg p off n o s s').
    { unfold patch_object in HD. pose proof (apply_cases _ _ _ _ _ _ _ _ SC s) as C.
      destruct (object_apply_patch A jent pg o s) as [[[k| | | |] o1] s1]; try contradiction; try discriminate.
      - pose proof (rollback_any A jent pg (sc_machine _ _ _ _ _ _ _ _ SC) p off n (sc_patch _ _ _ _ _ _ _ _ SC)
          Hc o (sc_fresh _ _ _ _ _ _ _ _ SC) s Hent) as HR.
        specialize (HR ltac:(intros x Hx; apply Hlow; unfold in_range; lia) fuel o1 s1 Hf C).
        destruct (object_unapply_patch A pg fuel true o1 s1) as [[[k| | | |] o''] u]; try discriminate; try contradiction. injection HD as _ <-. exact HR.
      - injection HD as _ <-. apply die_post_crashed. exact C. }
    unfold crashed in CR. fold sz in CR. rewrite Ebase in CR.
    destruct CR as [[C _]|[[_ C]|(img & jt & Hl & Hrg & Hfr & C)]].
    + apply M. rewrite C. apply Hfree. unfold in_range. lia.
    + congruence.
    + destruct (C X) as (C1 & C2 & C3).
      destruct (unpatch_core A jent pg (sc_machine _ _ _ _ _ _ _ _ SC) p off n (sc_patch _ _ _ _ _ _ _ _ SC)
        (sm s) base Hrg img jt Hl (sc_entries _ _ _ _ _ _ _ _ SC img jt Hl) (Htab _ _ Hl) id bid Hlab
        fuel' (quiet s') eq_refl Hf' X Hfr C1) as (u & E' & _).
      { eapply region_written_books; eauto using (sc_patch _ _ _ _ _ _ _ _ SC). }
      { exact C3. }
      rewrite E' in E. discriminate.
Qed.
Print Assumptions C56_when_partial.

(** The cases: with an object without a patch before it and one after it, the write of the second jump fails; and the tool dies once everything has been written, and before. *)
Definition ex_idle : obj := {| o_patch := None; o_is_patch := false; o_applied := []; o_hdr := None; o_info := None; o_kpta := 0; o_find := fun _ => 0 |}.
Example C04_only_one_case : Forall idle [ex_idle] /\
  fst (fst (apply_patches x86 16 4096 10 ([ex_idle] ++ ex_o :: [ex_idle]) 0 (ex_st ex_fail))) = Err /\
  so (snd (object_apply_patch x86 16 4096 ex_o (ex_st ex_fail))) = [].
Proof. split; [constructor; [left; reflexivity|constructor]|]. computed. Qed.
