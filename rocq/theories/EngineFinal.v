(** The statements about the engine, from the invariants. *)
From Coq Require Import ZArith List Bool Lia ZifyBool ZifyNat.
From Verif Require Import Base BaseProofs RemoteModel JumpModel EngineModel EngineSpec LayoutProofs
  EngineProofs ApplyProofs PeekProofs UnpatchProofs RollbackProofs.
Import ListNotations.
Open Scope Z_scope.
Ltac Zify.zify_post_hook ::= Z.div_mod_to_equations.

Section Final.
Variable A : arch.
Variables jent pg : Z.
Variable p : patch.
Variable off : Z.
Variable n : nat.
Variable o : obj.
Variable base : Z.
Hypothesis SC : scene A jent pg p off n o base.

Let H := a_hunk A.
Let h' := region_hdr A jent pg p off n.
Let sz := region_size A jent pg p off n.
Let replaced := replaced_byte A jent pg p off n base.

Let Hent' : forall img jt, p_link p (o_find o sz) h' = Some (img, jt) ->
  entries_ok (infos_of img off n) H (o_find o sz) sz.
Proof.
  intros img jt Hl. pose proof (sc_base _ _ _ _ _ _ _ _ SC) as E. fold sz in E. rewrite E in *.
  apply (sc_entries _ _ _ _ _ _ _ _ SC img jt Hl).
Qed.

Let Ebase : o_find o sz = base.
Proof. apply (sc_base _ _ _ _ _ _ _ _ SC). Qed.

Lemma apply_cases s :
  match object_apply_patch A jent pg o s with
  | (Ret k, o', s') => k = 1 /\ ok_post A jent pg p off n o s o' s'
  | (Err, o', s') => err_post A jent pg p off n o s o' s'
  | (Die, o', s') => die_post A jent pg p off n o s s'
  | _ => False
  end.
Proof.
  apply apply_post.
  - apply (sc_machine _ _ _ _ _ _ _ _ SC).
  - apply (sc_patch _ _ _ _ _ _ _ _ SC).
  - apply (sc_fresh _ _ _ _ _ _ _ _ SC).
  - exact Hent'.
Qed.

Lemma sz_pos : 0 < sz.
Proof.
  pose proof (facts A jent pg (sc_machine _ _ _ _ _ _ _ _ SC) p off n (sc_patch _ _ _ _ _ _ _ _ SC)) as LF.
  apply (lf_sz_small _ _ _ _ _ _ _ _ _ LF).
Qed.

(** C02 *)
Lemma frame_ok img jt s m : p_link p base h' = Some (img, jt) ->
  frame A jent pg p off n (sm s) base img m ->
  forall x, ~ in_range x base sz -> ~ replaced x -> m x = sm s x.
Proof.
  intros Hl Hf x H1 H2. apply Hf; auto. intros C. apply H2. exists img, jt. auto.
Qed.

Lemma crashed_frame s s' : crashed A jent pg p off n o s s' ->
  forall x, ~ in_range x base sz -> ~ replaced x -> sm s' x = sm s x.
Proof.
  intros C x H1 H2. unfold crashed, outside_same in C. fold sz in C. rewrite Ebase in C.
  destruct C as [[C _]|[[C _]|(img & jt & Hl & _ & C & _)]].
  - apply C.
  - apply C. exact H1.
  - eapply frame_ok; eauto.
Qed.

Lemma ok_frame s o' s' : ok_post A jent pg p off n o s o' s' ->
  forall x, ~ in_range x base sz -> ~ replaced x -> sm s' x = sm s x.
Proof.
  intros C x H1 H2. unfold ok_post in C. fold sz in C. rewrite Ebase in C.
  destruct C as (img & jt & Hl & Hr & K1 & K2 & l & K3 & C & _). eapply frame_ok; eauto.
Qed.

Lemma err_frame s o' s' : err_post A jent pg p off n o s o' s' ->
  forall x, ~ in_range x base sz -> ~ replaced x -> sm s' x = sm s x.
Proof.
  intros C x H1 H2. unfold err_post, untouched, region_only, outside_same, mx in C. fold sz in C. rewrite Ebase in C.
  destruct C as [(_ & C & _)|[(_ & _ & C & _)|[(_ & C & _)|[(_ & [[C _]|(_ & C & _)])|[(_ & _ & (_ & C & _) & _)|C]]]]];
    try (rewrite C; reflexivity); try (apply C; exact H1).
  destruct C as (img & jt & Hl & Hr & K1 & K2 & l & K3 & K4 & C & _). eapply frame_ok; eauto.
Qed.

Theorem patching_frame s : let '(r, _, s') := object_apply_patch A jent pg o s in
  r <> Hang /\ r <> UB /\
  forall x, ~ in_range x base sz -> ~ replaced x -> sm s' x = sm s x.
Proof.
  pose proof (apply_cases s) as C. destruct (object_apply_patch A jent pg o s) as [[[k| | | |] o'] s'];
    try contradiction; repeat split; try discriminate.
  - destruct C as [_ C]. eapply ok_frame; eauto.
  - eapply err_frame; eauto.
  - eapply crashed_frame, die_post_crashed; eauto.
Qed.

Theorem patching_frame_rollback fuel s : (1 <= fuel)%nat -> file_clean (p_hdr p) ->
  nothing_at (sm s) 0 sz ->
  let '(r, _, s') := patch_object A jent pg fuel o s in
  r <> Hang /\ r <> UB /\
  forall x, ~ in_range x base sz -> ~ replaced x -> sm s' x = sm s x.
Proof.
  intros Hf Hc Hlow. unfold patch_object.
  pose proof (apply_cases s) as C. destruct (object_apply_patch A jent pg o s) as [[[k| | | |] o'] s'];
    try contradiction.
  - repeat split; try discriminate. destruct C as [_ C]. eapply ok_frame; eauto.
  - pose proof (rollback_any A jent pg (sc_machine _ _ _ _ _ _ _ _ SC) p off n (sc_patch _ _ _ _ _ _ _ _ SC)
      Hc o (sc_fresh _ _ _ _ _ _ _ _ SC) s Hent') as HR.
    specialize (HR ltac:(intros x Hx; apply Hlow; unfold in_range; lia) fuel o' s' Hf C).
    destruct (object_unapply_patch A pg fuel true o' s') as [[[k| | | |] o''] s'']; try contradiction;
      (repeat split; try discriminate; eapply crashed_frame; eauto).
  - repeat split; try discriminate. eapply crashed_frame, die_post_crashed; eauto.
Qed.

(** C03 *)
Theorem rollback_restores fuel s o' s' : (1 <= fuel)%nat -> file_clean (p_hdr p) ->
  nothing_at (sm s) 0 sz -> nothing_at (sm s) base sz ->
  object_apply_patch A jent pg o s = (Err, o', s') ->
  let '(_, _, s'') := object_unapply_patch A pg fuel true o' (quiet s') in
  (forall x, ~ in_range x base sz -> sm s'' x = sm s x) /\
  (o_kpta o' <> 0 \/ (forall x, sm s' x = sm s x) -> forall x, sm s'' x = sm s x).
Proof.
  intros Hf Hc Hlow Hfree Happ.
  pose proof (apply_cases s) as C. rewrite Happ in C.
  assert (C' : err_post A jent pg p off n o s o' (quiet s')) by exact C.
  pose proof (rollback_quiet A jent pg (sc_machine _ _ _ _ _ _ _ _ SC) p off n (sc_patch _ _ _ _ _ _ _ _ SC)
      Hc o (sc_fresh _ _ _ _ _ _ _ _ SC) s Hent') as HR.
  specialize (HR ltac:(intros x Hx; apply Hlow; unfold in_range; lia) fuel o' (quiet s') Hf C' eq_refl).
  cbv zeta in HR. unfold outside_same in HR. fold sz in HR. rewrite Ebase in HR.
  destruct (object_unapply_patch A pg fuel true o' (quiet s')) as [[r o''] s'']. cbn [snd] in HR.
  destruct HR as [[HR1 HR2]|[(HR1 & HR2 & HR3)|(HR1 & HR2 & HR3)]].
  - split; intros; apply HR2.
  - split; [exact HR3|]. intros [C1|C1]; [congruence|]. exfalso.
    pose proof sz_pos. cbn [sm quiet] in HR2.
    apply (HR2 base); [unfold in_range; lia|]. rewrite C1. apply Hfree. unfold in_range. lia.
  - split; [exact HR2|]. intros _ x.
    assert (HD : in_range x base sz \/ ~ in_range x base sz) by (unfold in_range; lia).
    destruct HD as [HD|HD]; [|auto]. rewrite HR3 by exact HD. symmetry. apply Hfree. exact HD.
Qed.

(** C05 *)
Theorem crash_then_unpatch fuel fuel' id bid s :
  (1 <= fuel)%nat -> (n < fuel')%nat -> file_clean (p_hdr p) -> labelled (p_hdr p) id bid ->
  (forall img jt, p_link p base h' = Some (img, jt) -> table_ok img off n) ->
  nothing_at (sm s) 0 sz -> nothing_at (sm s) base sz ->
  forall o' s', patch_object A jent pg fuel o s = (Die, o', s') ->
  let '(r, s'') := unpatch_object A pg fuel' bid id base (quiet s') in
  (r = Err /\ forall x, sm s'' x = sm s' x) \/
  (r = Ret 1 /\ forall x, sm s'' x = sm s x).
Proof.
  intros Hf Hf' Hc Hlab Htab Hlow Hfree o' s' HD.
  assert (CR : crashed A jent pg p off n o s s').
  { unfold patch_object in HD. pose proof (apply_cases s) as C.
    destruct (object_apply_patch A jent pg o s) as [[[k| | | |] o1] s1]; try contradiction; try discriminate.
    - pose proof (rollback_any A jent pg (sc_machine _ _ _ _ _ _ _ _ SC) p off n (sc_patch _ _ _ _ _ _ _ _ SC)
        Hc o (sc_fresh _ _ _ _ _ _ _ _ SC) s Hent') as HR.
      specialize (HR ltac:(intros x Hx; apply Hlow; unfold in_range; lia) fuel o1 s1 Hf C).
      destruct (object_unapply_patch A pg fuel true o1 s1) as [[[k| | | |] o''] s'']; try discriminate;
      try contradiction. injection HD as _ <-. exact HR.
    - injection HD as _ <-. apply die_post_crashed. exact C. }
  unfold crashed in CR. fold sz in CR. rewrite Ebase in CR.
  pose proof sz_pos as Hsz.
  assert (REF : sx s' base = false \/ (forall y, sm s' y = sm s y) ->
    unpatch_object A pg fuel' bid id base (quiet s') = (Err, quiet s')).
  { intros HC. unfold unpatch_object, recognise_patch, mem_read, pop, quiet. cbn [so sm sx].
    destruct (mread (sm s') base 1024) as [bs|] eqn:Em; [|reflexivity].
    destruct HC as [HC|HC]; [cbn [sm sx so]; rewrite HC; reflexivity|]. exfalso.
    destruct (proj1 (mread_spec _ _ _ _) Em) as [EL ED].
    specialize (ED base ltac:(unfold in_range; lia)). rewrite HC in ED.
    rewrite (Hfree base) in ED by (unfold in_range; lia). discriminate. }
  destruct (sx s' base) eqn:Ex.
  2:{ rewrite REF by auto. left. cbn. auto. }
  destruct CR as [[C _]|[[_ C]|(img & jt & Hl & Hrg & Hfr & C)]].
  - rewrite REF by auto. left. cbn. auto.
  - congruence.
  - destruct (C Ex) as (C1 & C2 & C3).
    destruct (unpatch_core A jent pg (sc_machine _ _ _ _ _ _ _ _ SC) p off n (sc_patch _ _ _ _ _ _ _ _ SC)
      (sm s) base Hrg img jt Hl (sc_entries _ _ _ _ _ _ _ _ SC img jt Hl) (Htab _ _ Hl) id bid Hlab
      fuel' (quiet s') eq_refl Hf' Ex Hfr C1) as (s'' & E & G1 & G2 & _).
    { eapply region_written_books; eauto using (sc_patch _ _ _ _ _ _ _ _ SC). }
    { exact C3. }
    rewrite E. right. split; [reflexivity|]. intros x. fold sz in G1, G2.
    assert (HDx : in_range x base sz \/ ~ in_range x base sz) by (unfold in_range; lia).
    destruct HDx as [HDx|HDx]; [|auto]. rewrite G1 by exact HDx. symmetry. apply Hfree. exact HDx.
Qed.

(** C01 *)
Theorem unpatch_restores_x fuel id bid s o' s' s2 :
  (n < fuel)%nat -> labelled (p_hdr p) id bid ->
  (forall img jt, p_link p base h' = Some (img, jt) -> table_ok img off n) ->
  object_apply_patch A jent pg o s = (Ret 1, o', s') ->
  sx s2 base = true -> mapped (sm s2) base sz ->
  (forall x, bookkeeping A h' base n x -> sm s2 x = sm s' x) ->
  (forall x, replaced x -> sm s2 x <> None) ->
  exists s'', unpatch_object A pg fuel bid id base (quiet s2) = (Ret 1, s'') /\
    (forall x, in_range x base sz -> sm s'' x = None) /\
    (forall x, replaced x -> sm s'' x = sm s x) /\
    (forall x, ~ in_range x base sz -> ~ replaced x -> sm s'' x = sm s2 x) /\
    (forall x, ~ in_range x base sz -> sx s'' x = sx s2 x).
Proof.
  intros Hf Hlab Htab Happ Hsx Hmap Hbook Hrm.
  pose proof (apply_cases s) as C. rewrite Happ in C. destruct C as [_ C].
  unfold ok_post in C. fold sz h' in C. rewrite Ebase in C.
  destruct C as (img & jt & Hl & Hrg & K1 & K2 & l & K3 & F1 & F2 & F3 & F4 & F5).
  pose proof (sc_machine _ _ _ _ _ _ _ _ SC) as HM. pose proof (sc_patch _ _ _ _ _ _ _ _ SC) as HP.
  pose proof (sc_entries _ _ _ _ _ _ _ _ SC img jt Hl) as Hen.
  pose proof (nums A jent pg HM p off n HP base Hrg img jt Hl) as HN. fold h' sz in HN.
  pose proof (facts A jent pg HM p off n HP) as LF. fold h' sz in LF.
  assert (Hrep : forall x, at_entry (infos_of img off n) H x <-> replaced x).
  { intros x. split; [intros Hx; exists img, jt; auto|].
    intros (img' & jt' & Hl' & Hx). fold h' in Hl'. rewrite Hl in Hl'. injection Hl' as <- <-. exact Hx. }
  (* a memory that differs from the present one only at the entry points *)
  assert (Hdec : exists mv : mem, (forall x, at_entry (infos_of img off n) H x -> mv x = sm s x) /\
     (forall x, ~ at_entry (infos_of img off n) H x -> mv x = sm s2 x)).
  { clear. exists (fun x => if existsb (fun i => negb (is_new_func i) && (daddr i <=? x) && (x <? daddr i + H))
        (infos_of img off n) then sm s x else sm s2 x).
    assert (HE : forall l x, existsb (fun i => negb (is_new_func i) && (daddr i <=? x) && (x <? daddr i + H)) l = true
       <-> at_entry l H x).
    { intros l x. rewrite existsb_exists. split.
      - intros (i & Hi & Hc). apply In_nth_error in Hi. destruct Hi as [j Hj].
        apply andb_true_iff in Hc. destruct Hc as [Hc Hc3]. apply andb_true_iff in Hc. destruct Hc as [Hc1 Hc2].
        apply negb_true_iff in Hc1.
        exists j, (daddr i). split; [exists i; split; auto|unfold in_range; lia].
      - intros (j & d & (i & Hi & Hn & Hd) & Hx). exists i. split; [eapply nth_error_In; eauto|].
        unfold in_range in Hx. rewrite Hn. lia. }
    split; intros x Hx.
    - apply HE in Hx. rewrite Hx. reflexivity.
    - destruct (existsb _ _) eqn:E; [|reflexivity]. apply HE in E. contradiction. }
  destruct Hdec as (mv & V1 & V2).
  destruct HN as (N1 & N2 & N3 & N4 & N5 & N6 & N7 & N8 & N9 & N10).
  destruct (unpatch_core A jent pg HM p off n HP
      mv base Hrg img jt Hl Hen (Htab _ _ Hl) id bid Hlab
      fuel (quiet s2) eq_refl Hf Hsx) as (s'' & E & G1 & G2 & G3).
  - intros x _ Hx. cbn [sm quiet]. symmetry. apply V2. exact Hx.
  - exact Hmap.
  - pose proof (region_written_books A jent pg p off n HP base img (Htab _ _ Hl) bid (sm s') F3) as [B1 B2].
    fold h' in B1, B2. split; intros k Hk; cbn [sm quiet]; fold h'.
    + rewrite Hbook; [apply B1; exact Hk|]. left. unfold in_range, hdr_size. fold h' in Hk.
      unfold zlen in Hk. rewrite N8 in Hk. lia.
    + rewrite Hbook; [apply B2; exact Hk|]. right; left.
      rewrite (lf_info _ _ _ _ _ _ _ _ _ LF). unfold in_range. lia.
  - intros j d Hr q Hq. cbn [sm quiet].
    assert (Hj : (j < n)%nat) by (eapply replaces_bound; eauto).
    destruct (F4 j d Hr) as [F4a _]. destruct (F4a Hj) as (Sv & _).
    destruct (Sv q Hq) as (S1 & S2 & S3).
    assert (Hat : at_entry (infos_of img off n) H (d + q)).
    { exists j, d. split; auto. unfold in_range, H. lia. }
    rewrite (V1 _ Hat). splits; auto.
    + rewrite Hbook; [exact S1|]. right; right. unfold slot. fold h'. unfold in_range. nia.
    + apply Hrm, Hrep. exact Hat.
  - exists s''. rewrite E. fold sz in G1, G2. split; [reflexivity|]. split; [exact G1|]. split.
    + intros x Hx. apply Hrep in Hx. rewrite G2; [apply V1; exact Hx|].
      destruct Hx as (j & d & Hr & Hx). unfold in_range in Hx.
      pose proof (entry_outside A jent pg p off n base img Hen j d (x - d) Hr ltac:(fold H; lia)) as Ho.
      unfold in_region in Ho. fold sz in Ho. replace (d + (x - d)) with x in Ho by lia. exact Ho.
    + split; [|exact G3]. intros x Hx Hx2. rewrite G2 by exact Hx. apply V2. rewrite Hrep. exact Hx2.
Qed.
Theorem unpatch_restores fuel id bid s o' s' s2 :
  (n < fuel)%nat -> labelled (p_hdr p) id bid ->
  (forall img jt, p_link p base h' = Some (img, jt) -> table_ok img off n) ->
  object_apply_patch A jent pg o s = (Ret 1, o', s') ->
  sx s2 base = true -> mapped (sm s2) base sz ->
  (forall x, bookkeeping A h' base n x -> sm s2 x = sm s' x) ->
  (forall x, replaced x -> sm s2 x <> None) ->
  exists s'', unpatch_object A pg fuel bid id base (quiet s2) = (Ret 1, s'') /\
    (forall x, in_range x base sz -> sm s'' x = None) /\
    (forall x, replaced x -> sm s'' x = sm s x) /\
    (forall x, ~ in_range x base sz -> ~ replaced x -> sm s'' x = sm s2 x).
Proof.
  intros Hf Hlab Htab Happ Hsx Hmap Hbook Hrm.
  destruct (unpatch_restores_x fuel id bid s o' s' s2 Hf Hlab Htab Happ Hsx Hmap Hbook Hrm) as (s'' & E & G1 & G2 & G3 & _).
  exists s''. auto.
Qed.
(** After patching: the region is there and executable, the replaced entries are mapped. *)
Theorem applied_facts s o' s' : object_apply_patch A jent pg o s = (Ret 1, o', s') ->
  sx s' base = true /\ mapped (sm s') base sz /\ (forall x, replaced x -> sm s' x <> None).
Proof.
  intros Happ. pose proof (apply_cases s) as C. rewrite Happ in C. destruct C as [_ C].
  unfold ok_post in C. fold sz h' in C. rewrite Ebase in C.
  destruct C as (img & jt & Hl & Hrg & K1 & K2 & l & K3 & F1 & F2 & F3 & F4 & F5).
  split; [exact F5|]. split; [exact F2|].
  intros x (img' & jt' & Hl' & j & d & Hr & Hx). fold h' in Hl'. rewrite Hl in Hl'. injection Hl' as <- <-.
  assert (Hj : (j < n)%nat) by (eapply replaces_bound; eauto).
  destruct (F4 j d Hr) as [F4a _]. destruct (F4a Hj) as (Sv & _). unfold in_range in Hx.
  destruct (Sv (x - d) ltac:(lia)) as (_ & _ & S3). replace (d + (x - d)) with x in S3 by lia. exact S3.
Qed.

Theorem unpatch_roundtrip fuel id bid s o' s' :
  (n < fuel)%nat -> labelled (p_hdr p) id bid ->
  (forall img jt, p_link p base h' = Some (img, jt) -> table_ok img off n) ->
  nothing_at (sm s) base sz ->
  object_apply_patch A jent pg o s = (Ret 1, o', s') ->
  exists s'', unpatch_object A pg fuel bid id base (quiet s') = (Ret 1, s'') /\
    forall x, sm s'' x = sm s x.
Proof.
  intros Hf Hlab Htab Hfree Happ.
  pose proof (apply_cases s) as C. rewrite Happ in C. destruct C as [_ C].
  pose proof (ok_frame _ _ _ C) as Hframe.
  unfold ok_post in C. fold sz h' in C. rewrite Ebase in C.
  destruct C as (img & jt & Hl & Hrg & K1 & K2 & l & K3 & F1 & F2 & F3 & F4 & F5).
  destruct (unpatch_restores fuel id bid s o' s' s' Hf Hlab Htab Happ F5 F2) as (s'' & E & G1 & G2 & G3).
  - auto.
  - intros x (img' & jt' & Hl' & j & d & Hr & Hx). fold h' in Hl'. rewrite Hl in Hl'. injection Hl' as <- <-.
    assert (Hj : (j < n)%nat) by (eapply replaces_bound; eauto).
    destruct (F4 j d Hr) as [F4a _]. destruct (F4a Hj) as (Sv & _). unfold in_range in Hx.
    destruct (Sv (x - d) ltac:(lia)) as (_ & _ & S3). replace (d + (x - d)) with x in S3 by lia. exact S3.
  - exists s''. split; [exact E|]. intros x.
    assert (HDx : in_range x base sz \/ ~ in_range x base sz) by (unfold in_range; lia).
    destruct HDx as [HDx|HDx].
    + rewrite G1 by exact HDx. symmetry. apply Hfree. exact HDx.
    + destruct (classic_entry (infos_of img off n) H x) as [Hx|Hx].
      * apply G2. exists img, jt. auto.
      * assert (Hn : ~ replaced x).
        { intros (img' & jt' & Hl' & Hx'). fold h' in Hl'. rewrite Hl in Hl'. injection Hl' as <- <-. auto. }
        rewrite G3 by auto. apply Hframe; auto.
Qed.

(** C58: what a successful patch achieves. *)
Theorem patch_effective s o' s' k : object_apply_patch A jent pg o s = (Ret k, o', s') ->
  k = 1 /\ o_kpta o' = base /\ sx s' base = true /\
  exists img jt, p_link p base h' = Some (img, jt) /\
    written (sm s') base h' /\ written (sm s') (base + get32 h' h_elf_offset) img /\
    forall j i, nth_error (infos_of img off n) j = Some i -> is_new_func i = false ->
      exists code, a_code A (daddr i) (saddr i) = Some code /\
        written (sm s') (daddr i) code /\
        forall q, 0 <= q < H ->
          sm s' (base + get32 h' h_user_undo + Z.of_nat j * H + q) = sm s (daddr i + q).
Proof.
  intros Happ. pose proof (apply_cases s) as C. rewrite Happ in C. destruct C as [-> C].
  unfold ok_post in C. fold sz h' in C. rewrite Ebase in C.
  destruct C as (img & jt & Hl & Hrg & K1 & K2 & l & K3 & F1 & F2 & F3 & F4 & F5).
  splits; auto. exists img, jt. splits; auto; try apply F3.
  intros j i Hi Hn. assert (Hr : replaces (infos_of img off n) j (daddr i)) by (exists i; auto).
  assert (Hj : (j < n)%nat) by (eapply replaces_bound; eauto).
  destruct (F4 j _ Hr) as [F4a _]. destruct (F4a Hj) as (Sv & _ & c & Hc & Hw).
  rewrite (nth_error_nth _ _ zinfo Hi) in Hc.
  exists c. splits; auto. intros q Hq. apply (Sv q Hq).
Qed.

End Final.

(** C06 *)
Theorem duplicate_refused A jent pg o p s : o_patch o = Some p ->
  applied_by_id o (hdr_str (p_hdr p) h_id) = true ->
  let '(r, _, s') := object_apply_patch A jent pg o s in
  (r = Err \/ r = Die \/ o_is_patch o = true) /\ sm s' = sm s /\ sx s' = sx s.
Proof.
  intros H1 H2. unfold object_apply_patch, object_apply_patch_with, obind at 1, oget at 1. rewrite H1.
  destruct (o_is_patch o); [unfold oret; auto|].
  unfold obind at 1, lift at 1, choice. pose proof (pop_mx s) as [E1 E2].
  destruct (pop s) as [[| |] s1]; cbn [snd] in *; auto.
  unfold obind at 1, oput at 1, obind at 1. rewrite H2. unfold ofail. auto.
Qed.

(** C54 *)
Theorem new_function_not_written A o h l j i s : o_info o = Some l -> nth_error l j = Some i ->
  is_new_func i = true -> apply_hunk A h j o s = (Ret tt, o, s).
Proof.
  intros H1 H2 H3. unfold apply_hunk, obind at 1, oget. rewrite H1.
  unfold nth_info. rewrite (nth_error_nth _ _ zinfo H2), H3. reflexivity.
Qed.

Theorem new_function_not_restored A check undo i : is_new_func i = true -> forall l1 q l2 s,
  restore_hunks A check undo q (l1 ++ i :: l2) s =
  (restore_hunks A check undo q l1 ;;; restore_hunks A check undo (S (q + length l1)) l2) s.
Proof.
  intros Hi. induction l1 as [|a l1 IH]; intros q l2 s; cbn [app restore_hunks].
  - unfold bind, ret. rewrite Hi. cbn [length]. replace (S (q + 0))%nat with (S q) by lia. reflexivity.
  - unfold bind at 1 2 3.
    destruct ((if is_new_func a then ret tt else _) s) as [[[]| | | |] s1]; try reflexivity.
    rewrite IH. unfold bind. cbn [length]. replace (S (q + S (length l1))) with (S (S q + length l1)) by lia.
    reflexivity.
Qed.
