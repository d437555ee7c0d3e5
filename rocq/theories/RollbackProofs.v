(** Rolling back a patch that could not be applied. *)
From Coq Require Import ZArith List Bool Lia ZifyBool ZifyNat.
From Verif Require Import Base BaseProofs RemoteModel JumpModel EngineModel EngineSpec LayoutProofs
  EngineProofs ApplyProofs PeekProofs UnpatchProofs.
Import ListNotations.
Open Scope Z_scope.
Ltac Zify.zify_post_hook ::= Z.div_mod_to_equations.

Lemma restore_none A u l : Forall (fun i => is_applied i = false) l ->
  forall q s, restore_hunks A true u q l s = (Ret tt, s).
Proof.
  induction 1 as [|i l Hi Hl IH]; intros q s; cbn [restore_hunks]; [reflexivity|].
  unfold bind. rewrite Hi. cbn [negb andb]. destruct (is_new_func i); unfold ret; apply IH.
Qed.

Section Rollback.
Variable A : arch.
Variables jent pg : Z.
Hypothesis HM : machine_ok A jent pg.
Variable p : patch.
Variable off : Z.
Variable n : nat.
Hypothesis HP : patch_ok A jent pg p off n.
Hypothesis Hclean : file_clean (p_hdr p).

Let H := a_hunk A.
Let h' := region_hdr A jent pg p off n.
Let sz := region_size A jent pg p off n.

Variable o0 : obj.
Hypothesis Hfr : fresh o0 p.
Variable s0 : st.
Let m0 := sm s0.
Let base := o_find o0 sz.
Hypothesis Hent : forall img jt, p_link p base h' = Some (img, jt) ->
  entries_ok (infos_of img off n) H base sz.
Hypothesis Hlow : forall x, 0 <= x < sz -> m0 x = None.

Definition crashed (s : st) : Prop :=
  mx (fun m x => (forall y, m y = m0 y) /\ (x base = true -> sx s0 base = true)) s \/
  mx (fun m x => outside_same A jent pg p off n o0 s0 m /\ x base = false) s \/
  (exists img jt, p_link p base h' = Some (img, jt) /\ range_ok pg base sz = true /\
   die_inv A jent pg p off n m0 base img s).

Lemma die_post_crashed s : die_post A jent pg p off n o0 s0 s -> crashed s.
Proof.
  intros [[D1 D2]|[[_ D]|D]].
  - left. split; [intros y; now rewrite D1|]. rewrite D2. auto.
  - right; left. unfold mx in *. tauto.
  - right; right. exact D.
Qed.

(** The common tail: safety check, restoring, unmapping. *)
Definition tail (o : obj) (h : list Z) (l : list info) : OM Z :=
  lift (restore_hunks A true (u64 (o_kpta o + get32 h h_user_undo)) 0 l) ~;;
  lift (munmap_remote pg (o_kpta o) (get64 h h_total_mem)) ~;;
  oret 1.

Lemma unapply_known fuel o h l s : o_hdr o = Some h -> o_info o = Some l ->
  object_unapply_patch A pg fuel true o s =
  match choice s with
  | (Ret _, s') => tail o h l o s'
  | (Err, s') => (Err, o, s') | (Die, s') => (Die, o, s')
  | (Hang, s') => (Hang, o, s') | (UB, s') => (UB, o, s')
  end.
Proof.
  intros E1 E2. unfold object_unapply_patch, object_unapply_patch_with, find_applied_info, tail, obind, lift, oget, oret.
  rewrite E2. cbv beta iota. destruct (choice s) as [[| | | |] s']; try reflexivity.
  rewrite E1, E2. reflexivity.
Qed.

Definition out {X Y} (P : st -> Prop) (r : outcome X * Y * st) : Prop :=
  match r with
  | (Ret _, _, s) | (Err, _, s) | (Die, _, s) => P s
  | _ => False
  end.
Lemma out_imp {X Y} (P Q : st -> Prop) (r : outcome X * Y * st) :
  (forall s, P s -> Q s) -> out P r -> out Q r.
Proof. intros HPQ. destruct r as [[[| | | |] ?] ?]; cbn; auto. Qed.

Definition nearly (m : mem) (x : Z -> bool) : Prop :=
  (forall y, m y = m0 y) /\ (x base = true -> sx s0 base = true).

Lemma sx_clear_true x a k y : sx_clear x a k y = true -> x y = true.
Proof. unfold sx_clear. destruct (_ && _); [discriminate|auto]. Qed.

Lemma rb_nothing fuel o s : (1 <= fuel)%nat -> (o = o0 /\ untouched s0 s) ->
  out (mx nearly) (object_unapply_patch A pg fuel true o s).
Proof.
  intros Hfuel HE.
  pose proof (facts A jent pg HM p off n HP) as LF. fold h' sz in LF.
  assert (Hpg : 4096 <= pg <= 65536).
  { destruct HM as [_ _ (kk & Hkk & Epg) _]. rewrite Epg. change 4096 with (2 ^ 12). change 65536 with (2 ^ 16).
    split; apply Z.pow_le_mono_r; lia. }
  destruct Hfr as [F1 F2 F3 F4 F5]. destruct Hclean as [HC1 HC2].
  pose proof (lf_sz_small _ _ _ _ _ _ _ _ _ LF) as Hszs.
  pose proof (lf_sz_up _ _ _ _ _ _ _ _ _ LF) as Hup.
  assert (UN : forall s', untouched s0 s' -> mx nearly s').
  { intros s' [D1 D2]. split; [intros y; now rewrite D1|]. rewrite D2. auto. }
  destruct HE as [-> HE]. unfold object_unapply_patch, object_unapply_patch_with, find_applied_info, obind at 1 2, oget at 1.
    rewrite F4, F3. unfold ofail. apply UN. exact HE.
Qed.

Lemma rb_duplicate fuel o s : (1 <= fuel)%nat -> (o = with_hdr o0 (p_hdr p) /\ applied_by_id o0 (hdr_str (p_hdr p) h_id) = true /\ untouched s0 s) ->
  out (mx nearly) (object_unapply_patch A pg fuel true o s).
Proof.
  intros Hfuel HE.
  pose proof (facts A jent pg HM p off n HP) as LF. fold h' sz in LF.
  assert (Hpg : 4096 <= pg <= 65536).
  { destruct HM as [_ _ (kk & Hkk & Epg) _]. rewrite Epg. change 4096 with (2 ^ 12). change 65536 with (2 ^ 16).
    split; apply Z.pow_le_mono_r; lia. }
  destruct Hfr as [F1 F2 F3 F4 F5]. destruct Hclean as [HC1 HC2].
  pose proof (lf_sz_small _ _ _ _ _ _ _ _ _ LF) as Hszs.
  pose proof (lf_sz_up _ _ _ _ _ _ _ _ _ LF) as Hup.
  assert (UN : forall s', untouched s0 s' -> mx nearly s').
  { intros s' [D1 D2]. split; [intros y; now rewrite D1|]. rewrite D2. auto. }
  destruct HE as (-> & Hid & HE).
    unfold object_unapply_patch, object_unapply_patch_with, find_applied_info, obind at 1 2, oget at 1.
    cbn [o_info o_hdr with_hdr o_kpta]. rewrite F4, F5.
    replace (applied_by_id (with_hdr o0 (p_hdr p)) (hdr_str (p_hdr p) h_id)) with true
      by (symmetry; exact Hid). cbn [negb].
    rewrite HC1. change (u64 (0 + 0)) with 0. unfold obind at 1, lift at 1.
    assert (HR : match read_infos pg fuel (iter_init pg) 0 [] s with
       | (Ret l, s') => l = [] /\ mx nearly s'
       | (Die, s') => mx nearly s'
       | _ => False end).
    { destruct fuel as [|fuel]; [lia|]. cbn [read_infos].
      pose proof (UN s HE) as HN. destruct HE as [HE1 HE2].
      unfold bind at 1. unfold iter_peek. unfold info_size.
      replace (pg <? 48) with false by lia. unfold iter_init. cbn [it_len it_base it_buf]. cbn [Z.eqb orb].
      assert (HZ : slice (repeat 0 (Z.to_nat pg)) (u64 (0 - 0)) 48 = Some (repeat 0 48)).
      { change (u64 (0 - 0)) with 0. unfold slice.
        replace ((0 <=? 0) && (0 <=? 48) && (0 + 48 <=? zlen (repeat 0 (Z.to_nat pg)))) with true
          by (unfold zlen; rewrite repeat_length; lia).
        change (Z.to_nat 48) with 48%nat. change (Z.to_nat 0) with 0%nat. cbn [skipn].
        replace (Z.to_nat pg) with (48 + (Z.to_nat pg - 48))%nat by lia. rewrite repeat_app.
        rewrite firstn_app, repeat_length, Nat.sub_diag. cbn [firstn]. rewrite app_nil_r.
        f_equal. }
      assert (HPR : exists s', (pread 0 (Z.to_nat pg) s = (Ret None, s') \/ pread 0 (Z.to_nat pg) s = (Die, s')) /\ mx nearly s').
      { unfold pread. pose proof (pop_mx s) as [G1 G2]. destruct (pop s) as [an s']. cbn [snd] in *.
        exists s'. split.
        - destruct an; auto.
          assert (HZm : maplen (sm s') 0 (Z.to_nat pg) = 0%nat).
          { rewrite G1, HE1. fold m0. destruct (Z.to_nat pg); [reflexivity|]. cbn [maplen].
            rewrite Hlow by lia. reflexivity. }
          cbv zeta. rewrite HZm.
          replace (Nat.eqb 0 0 && negb (Nat.eqb (Z.to_nat pg) 0)) with true by lia. auto.
        - unfold mx. rewrite G1, G2. exact HN. }
      destruct HPR as (s' & [E|E] & HN'); unfold bind at 1; rewrite E.
      - cbn [it_base it_buf]. rewrite HZ. unfold ret.
        change (is_end_info (info_of (repeat 0 48))) with true. cbv beta iota. auto.
      - exact HN'. }
    destruct (read_infos pg fuel (iter_init pg) 0 [] s) as [[l| | | |] s1]; try contradiction.
    2:{ exact HR. }
    destruct HR as [-> HN]. unfold oput at 1.
    unfold obind at 1, oget at 1. unfold obind at 1, lift at 1.
    pose proof (m_choice _ s1 HN) as HN1.
    destruct (choice s1) as [[[]| | | |] s2]; try contradiction; try (exact HN1).
    cbn [o_hdr o_info with_info with_hdr o_kpta]. cbn [restore_hunks].
    unfold obind at 1, lift at 1, ret at 1. unfold obind at 1, lift at 1.
    rewrite F5, HC2.
    assert (HMU : mtriple (mx nearly) (munmap_remote pg 0 0) (fun _ => mx nearly) (mx nearly) (mx nearly)).
    { apply m_munmap; auto. intros m x _ Hr. unfold range_ok in Hr. lia. }
    specialize (HMU s2 HN1). destruct (munmap_remote pg 0 0 s2) as [[[]| | | |] s3]; try contradiction; exact HMU.
Qed.

Lemma rb_file fuel o s : (1 <= fuel)%nat -> (o = with_info (with_hdr o0 (p_hdr p)) (p_infos0 p) /\ untouched s0 s) ->
  out (mx nearly) (object_unapply_patch A pg fuel true o s).
Proof.
  intros Hfuel HE.
  pose proof (facts A jent pg HM p off n HP) as LF. fold h' sz in LF.
  assert (Hpg : 4096 <= pg <= 65536).
  { destruct HM as [_ _ (kk & Hkk & Epg) _]. rewrite Epg. change 4096 with (2 ^ 12). change 65536 with (2 ^ 16).
    split; apply Z.pow_le_mono_r; lia. }
  destruct Hfr as [F1 F2 F3 F4 F5]. destruct Hclean as [HC1 HC2].
  pose proof (lf_sz_small _ _ _ _ _ _ _ _ _ LF) as Hszs.
  pose proof (lf_sz_up _ _ _ _ _ _ _ _ _ LF) as Hup.
  assert (UN : forall s', untouched s0 s' -> mx nearly s').
  { intros s' [D1 D2]. split; [intros y; now rewrite D1|]. rewrite D2. auto. }
  destruct HE as [-> HE].
    rewrite (unapply_known fuel _ (p_hdr p) (p_infos0 p)) by reflexivity.
    pose proof (m_choice _ s (UN _ HE)) as HN1.
    destruct (choice s) as [[[]| | | |] s2]; try contradiction; try (exact HN1).
    unfold tail. unfold obind at 1, lift at 1. rewrite restore_none by apply (po_flags0 _ _ _ _ _ _ HP).
    cbn [o_kpta with_info with_hdr]. unfold obind at 1, lift at 1. rewrite F5, HC2.
    assert (HMU : mtriple (mx nearly) (munmap_remote pg 0 0) (fun _ => mx nearly) (mx nearly) (mx nearly)).
    { apply m_munmap; auto. intros m x _ Hr. unfold range_ok in Hr. lia. }
    specialize (HMU s2 HN1). destruct (munmap_remote pg 0 0 s2) as [[[]| | | |] s3]; try contradiction; exact HMU.
Qed.

Lemma rb_mmap (P : mem -> (Z -> bool) -> Prop) fuel s : (1 <= fuel)%nat ->
  (forall m x, P m x -> P (munmap m 0 sz) (sx_clear x 0 sz)) -> mx P s ->
  out (mx P) (object_unapply_patch A pg fuel true (with_info (with_hdr o0 h') (p_infos0 p)) s).
Proof.
  intros Hfuel HPm HP0.
  pose proof (facts A jent pg HM p off n HP) as LF. fold h' sz in LF.
  assert (Hpg : 4096 <= pg <= 65536).
  { destruct HM as [_ _ (kk & Hkk & Epg) _]. rewrite Epg. change 4096 with (2 ^ 12). change 65536 with (2 ^ 16).
    split; apply Z.pow_le_mono_r; lia. }
  destruct Hfr as [F1 F2 F3 F4 F5]. destruct Hclean as [HC1 HC2].
  pose proof (lf_sz_small _ _ _ _ _ _ _ _ _ LF) as Hszs.
  pose proof (lf_sz_up _ _ _ _ _ _ _ _ _ LF) as Hup.
  assert (UN : forall s', untouched s0 s' -> mx nearly s').
  { intros s' [D1 D2]. split; [intros y; now rewrite D1|]. rewrite D2. auto. }
    rewrite (unapply_known fuel _ h' (p_infos0 p)) by reflexivity.
    pose proof (m_choice _ s HP0) as HN1.
    destruct (choice s) as [[[]| | | |] s2]; try contradiction; try (exact HN1).
    unfold tail. unfold obind at 1, lift at 1. rewrite restore_none by apply (po_flags0 _ _ _ _ _ _ HP).
    cbn [o_kpta with_info with_hdr]. unfold obind at 1, lift at 1.
    rewrite F5, (lf_total _ _ _ _ _ _ _ _ _ LF).
    assert (HMU : mtriple (mx P) (munmap_remote pg 0 sz) (fun _ => mx P) (mx P) (mx P)).
    { apply m_munmap; auto. rewrite Hup. intros m x Hm Hr.
      split; apply HPm; auto. }
    specialize (HMU s2 HN1). destruct (munmap_remote pg 0 sz s2) as [[[]| | | |] s3]; try contradiction; exact HMU.
Qed.

Lemma low_nearly m x : nearly m x -> nearly (munmap m 0 sz) (sx_clear x 0 sz).
Proof.
  intros [M1 M2]. split.
  - intros y. unfold munmap. destruct ((0 <=? y) && (y <? 0 + sz)) eqn:Ey; [|auto].
    rewrite Hlow by lia. reflexivity.
  - intros C. apply M2. eapply sx_clear_true; eauto.
Qed.
Definition outs (m : mem) (x : Z -> bool) : Prop :=
  outside_same A jent pg p off n o0 s0 m /\ x base = false.
Lemma low_outs m x : outs m x -> outs (munmap m 0 sz) (sx_clear x 0 sz).
Proof.
  intros [M1 M2]. split.
  - intros y Hy. unfold munmap. destruct ((0 <=? y) && (y <? 0 + sz)) eqn:Ey; [|auto].
    fold m0. rewrite Hlow by lia. reflexivity.
  - destruct (sx_clear x 0 sz base) eqn:Es; [|reflexivity]. apply sx_clear_true in Es. congruence.
Qed.

Lemma rb_region fuel o s : (1 <= fuel)%nat -> (o_kpta o = base /\ o_hdr o = Some h' /\ region_only A jent pg p off n o0 s0 s /\
   exists l, o_info o = Some l /\ Forall (fun i => is_applied i = false) l) ->
  out (mx outs) (object_unapply_patch A pg fuel true o s).
Proof.
  intros Hfuel HE.
  pose proof (facts A jent pg HM p off n HP) as LF. fold h' sz in LF.
  assert (Hpg : 4096 <= pg <= 65536).
  { destruct HM as [_ _ (kk & Hkk & Epg) _]. rewrite Epg. change 4096 with (2 ^ 12). change 65536 with (2 ^ 16).
    split; apply Z.pow_le_mono_r; lia. }
  destruct Hfr as [F1 F2 F3 F4 F5]. destruct Hclean as [HC1 HC2].
  pose proof (lf_sz_small _ _ _ _ _ _ _ _ _ LF) as Hszs.
  pose proof (lf_sz_up _ _ _ _ _ _ _ _ _ LF) as Hup.
  assert (UN : forall s', untouched s0 s' -> mx nearly s').
  { intros s' [D1 D2]. split; [intros y; now rewrite D1|]. rewrite D2. auto. }
  destruct HE as (K1 & K2 & [Hrg HR] & l & K3 & K4).
    change (o_kpta o = base) in K1.
    rewrite (unapply_known fuel _ h' l) by assumption.
    set (P := outs).
    assert (HP0 : mx P s) by (unfold mx, P, outs in *; tauto).
    pose proof (m_choice _ s HP0) as HN1.
    destruct (choice s) as [[[]| | | |] s2]; try contradiction; try (exact HN1).
    unfold tail. unfold obind at 1, lift at 1. rewrite restore_none by assumption.
    unfold obind at 1, lift at 1. rewrite K1, (lf_total _ _ _ _ _ _ _ _ _ LF).
    assert (HMU : mtriple (mx P) (munmap_remote pg base sz) (fun _ => mx P) (mx P) (mx P)).
    { apply m_munmap; auto. rewrite Hup. intros m x [M1 M2] Hr.
      enough (P (munmap m base sz) (sx_clear x base sz)) by auto. split.
      - intros y Hy. rewrite munmap_out by exact Hy. apply M1. exact Hy.
      - destruct (sx_clear x base sz base) eqn:Es; [|reflexivity]. apply sx_clear_true in Es. congruence. }
    specialize (HMU s2 HN1). destruct (munmap_remote pg base sz s2) as [[[]| | | |] s3]; try contradiction; exact HMU.
Qed.

Lemma rb_hunks fuel o s : (1 <= fuel)%nat -> (exists img jt, p_link p base h' = Some (img, jt) /\ range_ok pg base sz = true /\
   err_inv A jent pg p off n m0 base img o s) ->
  out crashed (object_unapply_patch A pg fuel true o s).
Proof.
  intros Hfuel HE.
  pose proof (facts A jent pg HM p off n HP) as LF. fold h' sz in LF.
  assert (Hpg : 4096 <= pg <= 65536).
  { destruct HM as [_ _ (kk & Hkk & Epg) _]. rewrite Epg. change 4096 with (2 ^ 12). change 65536 with (2 ^ 16).
    split; apply Z.pow_le_mono_r; lia. }
  destruct Hfr as [F1 F2 F3 F4 F5]. destruct Hclean as [HC1 HC2].
  pose proof (lf_sz_small _ _ _ _ _ _ _ _ _ LF) as Hszs.
  pose proof (lf_sz_up _ _ _ _ _ _ _ _ _ LF) as Hup.
  assert (UN : forall s', untouched s0 s' -> mx nearly s').
  { intros s' [D1 D2]. split; [intros y; now rewrite D1|]. rewrite D2. auto. }
  destruct HE as (img & jt & Hl & Hrg & K1 & K2 & l & K3 & K4 & K5).
    change (o_kpta o = base) in K1.
    rewrite (unapply_known fuel _ h' l) by assumption.
    pose proof (m_choice _ s K5) as HN1. clear K5.
    assert (HDI : forall m x, (frame A jent pg p off n m0 base img m /\ mapped m base sz /\
        recoverable A jent pg p off n m0 base img m l /\
        (x base = true -> region_written A jent pg p off n base img m /\ all_saved A jent pg p off n m0 base img m /\
           forall j d, replaces (infos_of img off n) j d -> is_applied (nth j l zinfo) = true)) ->
        frame A jent pg p off n m0 base img m /\
        (x base = true -> mapped m base sz /\ region_written A jent pg p off n base img m /\ all_saved A jent pg p off n m0 base img m))
      by (intros m x Hm; tauto).
    assert (HPc : forall s', die_inv A jent pg p off n m0 base img s' -> crashed s').
    { intros s' HH; right; right. exists img, jt. auto. }
    destruct (choice s) as [[[]| | | |] s2]; try contradiction; try (apply HPc, HDI; exact HN1).
    unfold tail. unfold obind at 1, lift at 1. rewrite K1, (lf_total _ _ _ _ _ _ _ _ _ LF).
    pose proof (nums A jent pg HM p off n HP base Hrg img jt Hl) as HNm. fold h' sz in HNm.
    destruct HNm as (N1 & N2 & N3 & N4 & N5 & N6 & N7 & N8 & N9 & N10).
    assert (HU : u64 (base + get32 h' h_user_undo) = base + get32 h' h_user_undo).
    { apply u64_small. change (2 ^ 64) with 18446744073709551616. change (2 ^ 47) with 140737488355328 in *.
      pose proof (zlen_nonneg img). lia. }
    rewrite HU.
    set (sel := fun j => is_applied (nth j l zinfo)).
    set (b := sx s2 base). assert (Hb : sx s2 base = b) by reflexivity. clearbody b.
    set (K := fun m => b = true -> region_written A jent pg p off n base img m).
    assert (HK : forall m m', (forall x, in_region A jent pg p off n base x -> m' x = m x) -> K m -> K m').
    { intros m m' Hmm HKm Eb. destruct (HKm Eb) as [W1 W2]. fold h' in W1, W2. fold sz in Hmm.
      pose proof (zlen_nonneg img).
      split; intros k Hk; (rewrite Hmm; [auto|]); unfold in_region, in_range; fold sz; fold h' in Hk |- *.
      - unfold zlen in Hk. rewrite N8 in Hk. lia.
      - lia. }
    destruct HN1 as (Q1 & Q2 & Q3 & Q4). fold sz in Q2.
    assert (HTO : tab_ok off n img sel true 0 l).
    { destruct K4 as [KL KS]. split; [lia|]. intros i Hi.
      destruct (same_infos_new off n img l i (conj KL KS)) as (G1 & G2 & G3). cbn [Nat.add andb].
      split; auto. }
    assert (HRs : restoring A jent pg p off n m0 base img sel K 0 (sm s2)).
    { unfold restoring. splits; auto; try lia.
      - intros Eb. apply Q4. exact (eq_trans Hb Eb).
      - intros j d Hr Hs. destruct (Q3 j d Hr) as [[_ C]|[C _]]; auto. unfold sel in Hs. congruence.
      - intros j d Hr Hs. destruct (Q3 j d Hr) as [[C _]|[_ C]]; auto. unfold sel in Hs. congruence. }
    pose proof (restore_triple A jent pg HM p off n HP m0 base Hrg img jt Hl (Hent _ _ Hl) sel K HK
      true (fun x => x base = b) l 0 HTO s2 (conj HRs Hb)) as HT.
    fold h' in HT.
    assert (HRD : forall q m x, restoring A jent pg p off n m0 base img sel K q m -> x base = b ->
      frame A jent pg p off n m0 base img m /\
        (x base = true -> mapped m base sz /\ region_written A jent pg p off n base img m /\ all_saved A jent pg p off n m0 base img m)).
    { intros q m x (R1 & R2 & R3 & R4 & R5 & R6) Hx. split; auto. intros Hx'. splits; auto.
      - apply R3. exact (eq_trans (eq_sym Hx) Hx').
      - intros j d Hr. apply R4; auto. unfold sel. apply (proj2 (proj2 (Q4 (eq_trans Hb (eq_trans (eq_sym Hx) Hx')))) j d Hr). }
    destruct (restore_hunks A true (base + get32 h' h_user_undo) 0 l s2) as [[[]| | | |] s3];
      try contradiction; try (destruct HT as [HT1 HT2]; apply HPc; eapply HRD; eauto).
    destruct HT as [HT1 HT2].
    unfold obind at 1, lift at 1.
    set (D := fun (m : mem) (x : Z -> bool) => frame A jent pg p off n m0 base img m /\
        (x base = true -> mapped m base sz /\ region_written A jent pg p off n base img m /\ all_saved A jent pg p off n m0 base img m)).
    assert (HMU : mtriple (mx D) (munmap_remote pg base sz) (fun _ => mx D) (mx D) (mx D)).
    { apply m_munmap; auto. rewrite Hup. intros m x [M1 M2] Hr.
      enough (D (munmap m base sz) (sx_clear x base sz)) by auto. split.
      - intros y Hy Hy'. rewrite munmap_out by exact Hy. apply M1; auto.
      - unfold sx_clear. replace ((base <=? base) && (base <? base + sz)) with true by lia. discriminate. }
    specialize (HMU s3 (HRD _ _ _ HT1 HT2)).
    destruct (munmap_remote pg base sz s3) as [[[]| | | |] s4]; try contradiction; apply HPc; exact HMU.
Qed.

Lemma rollback_any fuel o s : (1 <= fuel)%nat -> err_post A jent pg p off n o0 s0 o s ->
  out crashed (object_unapply_patch A pg fuel true o s).
Proof.
  intros Hfuel HE.
  assert (NC : forall s', mx nearly s' -> crashed s') by (intros s' HH; left; exact HH).
  assert (OC : forall s', mx outs s' -> crashed s') by (intros s' HH; right; left; exact HH).
  destruct HE as [HE|[HE|[HE|[[-> HE]|[HE|HE]]]]].
  - eapply out_imp; [exact NC|]. apply rb_nothing; auto.
  - eapply out_imp; [exact NC|]. apply rb_duplicate; auto.
  - eapply out_imp; [exact NC|]. apply rb_file; auto.
  - destruct HE as [[D1 D2]|[_ HE]].
    + eapply out_imp; [exact NC|]. apply rb_mmap; auto using low_nearly.
      split; [intros y; now rewrite D1|]. rewrite D2. auto.
    + eapply out_imp; [exact OC|]. apply rb_mmap; auto using low_outs. unfold mx, outs in *. tauto.
  - eapply out_imp; [exact OC|]. apply rb_region; auto.
  - apply rb_hunks; auto.
Qed.

Lemma out_get {X Y} P (r : outcome X * Y * st) : out P r -> P (snd r).
Proof. destruct r as [[[| | | |] ?] ?]; cbn; auto; contradiction. Qed.

(** The roll-back itself meets no failure. *)
Lemma rollback_quiet fuel o s : (1 <= fuel)%nat -> err_post A jent pg p off n o0 s0 o s -> so s = [] ->
  let s' := snd (object_unapply_patch A pg fuel true o s) in
  (o_kpta o = 0 /\ forall y, sm s' y = m0 y) \/
  (o_kpta o = 0 /\ mapped (sm s) base sz /\ outside_same A jent pg p off n o0 s0 (sm s')) \/
  (o_kpta o = base /\ outside_same A jent pg p off n o0 s0 (sm s') /\
   forall x, in_range x base sz -> sm s' x = None).
Proof.
  intros Hfuel HE Hso. cbv zeta.
  pose proof (facts A jent pg HM p off n HP) as LF. fold h' sz in LF.
  pose proof (fr_kpta _ _ Hfr) as F5.
  destruct HE as [HE|[HE|[HE|[[-> HE]|[HE|HE]]]]].
  - left. pose proof (out_get _ _ (rb_nothing fuel o s Hfuel HE)) as [G _]. destruct HE as [-> _]. auto.
  - left. pose proof (out_get _ _ (rb_duplicate fuel o s Hfuel HE)) as [G _]. destruct HE as [-> _]. auto.
  - left. pose proof (out_get _ _ (rb_file fuel o s Hfuel HE)) as [G _]. destruct HE as [-> _]. auto.
  - destruct HE as [[D1 D2]|[_ HE]].
    + left. assert (HN : mx nearly s) by (split; [intros y; now rewrite D1|rewrite D2; auto]).
      pose proof (out_get _ _ (rb_mmap nearly fuel s Hfuel low_nearly HN)) as [G _]. auto.
    + right; left. assert (HN : mx outs s) by (unfold mx, outs in *; tauto).
      pose proof (out_get _ _ (rb_mmap outs fuel s Hfuel low_outs HN)) as [G _].
      splits; auto. apply HE.
  - right; right. pose proof (out_get _ _ (rb_region fuel o s Hfuel HE)) as [G _].
    destruct HE as (K1 & K2 & [Hrg HR] & l & K3 & K4). change (o_kpta o = base) in K1.
    splits; auto.
    rewrite (unapply_known fuel _ h' l) by assumption.
    unfold choice, pop. rewrite Hso. unfold tail, obind, lift. rewrite restore_none by assumption.
    rewrite K1, (lf_total _ _ _ _ _ _ _ _ _ LF). unfold munmap_remote, pop. rewrite Hso.
    assert (Hrg' : range_ok pg base sz = true) by exact Hrg. rewrite Hrg'. cbn [negb].
    rewrite (lf_sz_up _ _ _ _ _ _ _ _ _ LF). unfold oret. cbn [snd sm with_map].
    intros x Hx. apply munmap_in. exact Hx.
  - right; right. destruct HE as (img & jt & Hl & Hrg & K1 & K2 & l & K3 & K4 & K5).
    change (o_kpta o = base) in K1. split; [exact K1|].
    rewrite (unapply_known fuel _ h' l) by assumption.
    unfold choice, pop. rewrite Hso.
    pose proof (nums A jent pg HM p off n HP base Hrg img jt Hl) as HNm. fold h' sz in HNm.
    destruct HNm as (N1 & N2 & N3 & N4 & N5 & N6 & N7 & N8 & N9 & N10).
    assert (HU : u64 (base + get32 h' h_user_undo) = base + get32 h' h_user_undo).
    { apply u64_small. change (2 ^ 64) with 18446744073709551616. change (2 ^ 47) with 140737488355328 in *.
      pose proof (zlen_nonneg img). lia. }
    set (sel := fun j => is_applied (nth j l zinfo)). set (K := fun _ : mem => True).
    destruct K5 as (Q1 & Q2 & Q3 & Q4). fold sz in Q2.
    assert (HTO : tab_ok off n img sel true 0 l).
    { destruct K4 as [KL KS]. split; [lia|]. intros i Hi.
      destruct (same_infos_new off n img l i (conj KL KS)) as (G1 & G2 & G3). cbn [Nat.add andb].
      split; auto. }
    assert (HRs : restoring A jent pg p off n m0 base img sel K 0 (sm s)).
    { unfold restoring, K. splits; auto; try lia.
      - intros j d Hr Hs. destruct (Q3 j d Hr) as [[_ C]|[C _]]; auto. unfold sel in Hs. congruence.
      - intros j d Hr Hs. destruct (Q3 j d Hr) as [[C _]|[_ C]]; auto. unfold sel in Hs. congruence. }
    destruct (restore_quiet A jent pg HM p off n HP m0 base Hrg img jt Hl (Hent _ _ Hl) sel K
       ltac:(unfold K; auto) true l 0 s HTO Hso HRs) as (s1 & ER & Hso1).
    pose proof (restore_triple A jent pg HM p off n HP m0 base Hrg img jt Hl (Hent _ _ Hl) sel K
       ltac:(unfold K; auto) true (fun _ => True) l 0 HTO s (conj HRs I)) as HT.
    fold h' in ER, HT. rewrite ER in HT. destruct HT as [HT _].
    assert (ET : tail o h' l o s = (Ret 1, o, with_map s1 (munmap (sm s1) base sz)
       (fun x => if (base <=? x) && (x <? base + sz) then false else sx s1 x))).
    { unfold tail, obind, lift, oret. rewrite K1, HU, (lf_total _ _ _ _ _ _ _ _ _ LF), ER.
      unfold munmap_remote, pop. rewrite Hso1.
      assert (Hrg' : range_ok pg base sz = true) by exact Hrg. rewrite Hrg'. cbn [negb].
      rewrite (lf_sz_up _ _ _ _ _ _ _ _ _ LF). reflexivity. }
    rewrite ET. cbn [snd sm with_map].
    destruct HT as (R1 & R2 & R3 & R4 & R5 & R6).
    split; intros x Hx; [|apply munmap_in; exact Hx].
    rewrite munmap_out by exact Hx.
    destruct (classic_entry (infos_of img off n) H x) as [(j & d & Hr & Hxr)|Hno].
    + assert (Hj : (j < n)%nat) by (eapply replaces_bound; eauto).
      assert (Ho : orig A m0 (sm s1) d) by (destruct (sel j) eqn:Es; eauto).
      specialize (Ho (x - d)). unfold in_range in Hxr. fold H in Ho.
      specialize (Ho ltac:(lia)). replace (d + (x - d)) with x in Ho by lia. exact Ho.
    + apply R1; auto.
Qed.

End Rollback.
