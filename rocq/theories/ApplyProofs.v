(** Applying the patch of one object, from beginning to end. *)
From Coq Require Import ZArith List Bool Lia ZifyBool ZifyNat.
From Verif Require Import Base BaseProofs RemoteModel JumpModel EngineModel EngineSpec LayoutProofs
  EngineProofs.
Import ListNotations.
Open Scope Z_scope.
Ltac Zify.zify_post_hook ::= Z.div_mod_to_equations.

Lemma m_mprotect (P : mem -> (Z -> bool) -> Prop) pg a n (Q F : mem -> (Z -> bool) -> Prop) :
  (forall m x, P m x -> F m x) ->
  (forall m x x', P m x -> range_ok pg a n = true ->
     (forall y, x' y = if (a <=? y) && (y <? a + round_up n pg) then true else x y) ->
     Q m x' /\ F m x') ->
  mtriple (mx P) (mprotect_rx_remote pg a n) (fun _ => mx Q) (mx F) (mx F).
Proof.
  intros H0 H1 s H. unfold mprotect_rx_remote. pose proof (pop_mx s) as [E1 E2].
  destruct (pop s) as [an s']. cbn [snd] in *. unfold mx in *. rewrite <- E1, <- E2 in H.
  destruct (range_ok pg a n) eqn:E; cbn [negb andb].
  - destruct (Nat.eqb _ _); cbn [negb].
    + destruct (H1 _ _ (fun x => if (a <=? x) && (x <? a + round_up n pg) then true else sx s' x) H
                  eq_refl ltac:(reflexivity)) as [H1q H1f].
      destruct an as [|[|k]|[|k]]; cbn [sm sx with_map];
        first [exact (H0 _ _ H) | exact H1f | exact H1q].
    + destruct an; cbn; auto.
  - destruct an; cbn; auto.
Qed.

Lemma m_munmap (P : mem -> (Z -> bool) -> Prop) pg a n (Q F : mem -> (Z -> bool) -> Prop) :
  (forall m x, P m x -> F m x) ->
  (forall m x, P m x -> range_ok pg a n = true ->
     Q (munmap m a (round_up n pg)) (sx_clear x a (round_up n pg)) /\
     F (munmap m a (round_up n pg)) (sx_clear x a (round_up n pg))) ->
  mtriple (mx P) (munmap_remote pg a n) (fun _ => mx Q) (mx F) (mx F).
Proof.
  intros H0 H1 s H. unfold munmap_remote. pose proof (pop_mx s) as [E1 E2].
  destruct (pop s) as [an s']. cbn [snd] in *. unfold mx in *. rewrite <- E1, <- E2 in H.
  destruct (range_ok pg a n) eqn:E; cbn [negb].
  - destruct (H1 _ _ H eq_refl) as [H1q H1f].
    destruct an as [|[|k]|[|k]]; cbn [sm sx with_map];
      first [exact (H0 _ _ H) | exact H1f | exact H1q].
  - destruct an; cbn; auto.
Qed.

Lemma Forall_nth_flags l : Forall (fun i => is_applied i = false) l ->
  forall j, is_applied (nth j l zinfo) = false.
Proof.
  intros HF j. destruct (Nat.lt_ge_cases j (length l)) as [C|C].
  - rewrite Forall_forall in HF. apply HF, nth_In, C.
  - rewrite nth_overflow by lia. reflexivity.
Qed.

Section Object.
Variable A : arch.
Variables jent pg : Z.
Hypothesis HM : machine_ok A jent pg.
Variable p : patch.
Variable off : Z.
Variable n : nat.
Hypothesis HP : patch_ok A jent pg p off n.

Let H := a_hunk A.
Let h' := region_hdr A jent pg p off n.
Let sz := region_size A jent pg p off n.

Variable o0 : obj.
Hypothesis Hfr : fresh o0 p.
Variable s0 : st.
Let m0 := sm s0.
Let base := o_find o0 sz.
Hypothesis Hent : forall img jt, p_link p base h' = Some (img, jt) ->
  entries_ok (infos_of img off n) H base sz.

Definition outside_same (m : mem) : Prop := forall x, ~ in_range x base sz -> m x = m0 x.

(** Nothing done yet in the patient. *)
Definition untouched (s : st) : Prop := mx (fun m x => m = m0 /\ x = sx s0) s.
(** The region exists; no code has been touched. *)
Definition region_only (s : st) : Prop :=
  range_ok pg base sz = true /\
  mx (fun m x => outside_same m /\ mapped m base sz /\ x base = false) s.

Definition err_post (o : obj) (s : st) : Prop :=
  (o = o0 /\ untouched s) \/
  (o = with_hdr o0 (p_hdr p) /\ applied_by_id o0 (hdr_str (p_hdr p) h_id) = true /\ untouched s) \/
  (o = with_info (with_hdr o0 (p_hdr p)) (p_infos0 p) /\ untouched s) \/
  (o = with_info (with_hdr o0 h') (p_infos0 p) /\ (untouched s \/ region_only s)) \/
  (o_kpta o = base /\ o_hdr o = Some h' /\ region_only s /\
   exists l, o_info o = Some l /\ Forall (fun i => is_applied i = false) l) \/
  (exists img jt, p_link p base h' = Some (img, jt) /\ range_ok pg base sz = true /\
   err_inv A jent pg p off n m0 base img o s).

Definition die_post (s : st) : Prop :=
  untouched s \/ region_only s \/
  (exists img jt, p_link p base h' = Some (img, jt) /\ range_ok pg base sz = true /\
   die_inv A jent pg p off n m0 base img s).

Definition ok_post (o : obj) (s : st) : Prop :=
  exists img jt, p_link p base h' = Some (img, jt) /\ range_ok pg base sz = true /\
  o_kpta o = base /\ o_hdr o = Some h' /\
  exists l, o_info o = Some l /\
  mx (fun m x => frame A jent pg p off n m0 base img m /\ mapped m base sz /\
      region_written A jent pg p off n base img m /\
      hunks_at A jent pg p off n m0 base img n m l /\ x base = true) s.

Lemma with_info_twice o l l' : with_info (with_info o l) l' = with_info o l'.
Proof. reflexivity. Qed.

(** After the region has been mapped. *)
Definition mapped_obj (o : obj) : Prop :=
  o_kpta o = base /\ o_hdr o = Some h' /\
  exists l, o_info o = Some l /\ Forall (fun i => is_applied i = false) l.

Lemma inside_write m a bs : base <= a -> a + zlen bs <= base + sz ->
  outside_same m -> outside_same (mset m a bs).
Proof.
  intros H1 H2 Ho x Hx. rewrite mset_out; [auto|]. unfold in_range in *. lia.
Qed.

Lemma inside_prefix m a bs k : base <= a -> a + zlen bs <= base + sz ->
  outside_same m -> outside_same (mset m a (firstn k bs)).
Proof.
  intros H1 H2 Ho. apply inside_write; auto. unfold zlen in *. rewrite firstn_length. lia.
Qed.

Lemma written_self m a bs : written (mset m a bs) a bs.
Proof. intros k Hk. rewrite mset_in by (unfold in_range; lia). f_equal. f_equal. lia. Qed.
Lemma written_other m a bs b cs : a + zlen bs <= b \/ b + zlen cs <= a ->
  written m a bs -> written (mset m b cs) a bs.
Proof.
  intros Hd Hw k Hk. rewrite mset_out; [auto|]. unfold in_range. lia.
Qed.

(** A write inside the region before any code is touched. *)
Lemma m_inside (P Q : mem -> Prop) a bs : base <= a -> a + zlen bs <= base + sz ->
  range_ok pg base sz = true ->
  (forall m, P m -> outside_same m /\ mapped m base sz) ->
  (forall m, P m -> Q (mset m a bs)) ->
  mtriple (mx (fun m x => P m /\ x base = false)) (mem_write a bs)
     (fun _ => mx (fun m x => Q m /\ x base = false)) region_only region_only.
Proof.
  intros H1 H2 Hrg HP1 HQ s Hs.
  pose proof (m_write (fun m x => P m /\ x base = false) a bs
    (fun m x => Q m /\ x base = false)
    (fun m x => outside_same m /\ mapped m base sz /\ x base = false)) as HW.
  assert (HW1 := HW ltac:(intros m x [F1 F2] _; auto)).
  assert (HW2 := HW1 ltac:(intros m x k [F1 F2] _; destruct (HP1 m F1) as [G1 G2]; splits;
     [apply inside_prefix; auto|apply mset_mapped; auto|auto])).
  specialize (HW2 s Hs). unfold region_only. destruct (mem_write a bs s) as [[[]| | | |] s']; auto.
Qed.

Lemma apply_post : match object_apply_patch A jent pg o0 s0 with
  | (Ret k, o, s) => k = 1 /\ ok_post o s
  | (Err, o, s) => err_post o s
  | (Die, o, s) => die_post s
  | _ => False
  end.
Proof.
  unfold object_apply_patch, object_apply_patch_with. unfold obind at 1, oget at 1.
  destruct Hfr as [F1 F2 F3 F4 F5]. rewrite F1, F2.
  assert (U0 : untouched s0) by (split; reflexivity).
  unfold obind at 1. unfold lift at 1.
  pose proof (m_choice (fun m x => m = m0 /\ x = sx s0) s0 U0) as C1.
  destruct (choice s0) as [[[]| | | |] s1]; try contradiction;
    try (left; exact C1); try (left; split; [reflexivity|exact C1]).
  clear U0.
  unfold obind at 1, oput at 1. unfold obind at 1.
  destruct (applied_by_id o0 (hdr_str (p_hdr p) h_id)) eqn:Eid.
  { unfold ofail at 1. right; left. auto. }
  unfold oret at 1. rewrite (po_info _ _ _ _ _ _ HP).
  unfold obind at 1, oput at 1. unfold obind at 1.
  assert (C2 : match (if p_undef p =? 0 then oret tt else lift choice)
      (with_info (with_hdr o0 (p_hdr p)) (p_infos0 p)) s1 with
      | (Ret _, o, s) => o = with_info (with_hdr o0 (p_hdr p)) (p_infos0 p) /\ untouched s
      | (Err, o, s) => o = with_info (with_hdr o0 (p_hdr p)) (p_infos0 p) /\ untouched s
      | (Die, o, s) => untouched s
      | _ => False end).
  { destruct (p_undef p =? 0); [unfold oret; auto|]. unfold lift.
    pose proof (m_choice (fun m x => m = m0 /\ x = sx s0) s1 C1) as C2.
    destruct (choice s1) as [[[]| | | |] s2]; auto. }
  destruct ((if p_undef p =? 0 then oret tt else lift choice) _ s1) as [[[[]| | | |] o2] s2];
    try contradiction; try (left; exact C2).
  2:{ destruct C2. right; right; left. auto. }
  destruct C2 as [-> C2]. clear C1.
  assert (EL : layout A jent pg (p_hdr p) (p_undef p) off n = (h', sz)).
  { unfold h', sz, region_hdr, region_size. destruct (layout _ _ _ _ _ _ _); reflexivity. }
  rewrite EL. clear EL.
  unfold obind at 1, oput at 1. unfold obind at 1.
  pose proof (facts A jent pg HM p off n HP) as LF. fold h' sz in LF.
  destruct LF as [L1 L2 L3 L4 L5 L6 L7 L8 L9 L10 L11 L12 L13 L14 L15 L16 L17].
  destruct HM as [HM1 HM2 HM3 HM4].
  destruct HP as [P1 P2 P3 P4 P5 P6 P7 P8 P9 P10 P11].
  (* mapping the region *)
  unfold allocate_patch at 1. unfold obind at 1, oget at 1.
  replace (o_find (with_info (with_hdr o0 h') (p_infos0 p)) sz) with base by reflexivity.
  destruct (Z.eqb_spec base 0) as [Eb|Eb].
  { unfold ofail at 1. right; right; right; left. auto. }
  unfold obind at 1. unfold lift at 1.
  assert (CM : mtriple untouched (mmap_remote pg base sz)
     (fun r s => r = base /\ region_only s) (fun s => untouched s \/ region_only s)
     (fun s => untouched s \/ region_only s)).
  { intros s Hs.
    pose proof (m_mmap (fun m x => m = m0 /\ x = sx s0) pg base sz
      (fun m x => outside_same m /\ mapped m base sz /\ x base = false)
      (fun m x => (m = m0 /\ x = sx s0) \/
         (range_ok pg base sz = true /\ outside_same m /\ mapped m base sz /\ x base = false))) as HW.
    assert (HW1 := HW ltac:(intros; left; assumption)). clear HW.
    assert (Hm : forall (m : mem) (x : Z -> bool), m = m0 /\ x = sx s0 ->
      range_ok pg base sz = true ->
      outside_same (mmap_fixed m base sz) /\ mapped (mmap_fixed m base sz) base sz /\
      sx_clear x base sz base = false).
    { intros m x [-> ->] Hr. splits.
      - intros y Hy. apply mmap_fixed_out. exact Hy.
      - intros y Hy. rewrite mmap_fixed_in by exact Hy. discriminate.
      - unfold sx_clear. replace ((base <=? base) && (base <? base + sz)) with true by lia. reflexivity. }
    rewrite L16 in HW1.
    assert (HW2 := HW1 ltac:(intros m x Hx Hr; pose proof (Hm m x Hx Hr); auto)). clear HW1.
    specialize (HW2 s Hs).
    destruct (mmap_remote pg base sz s) as [[r| | | |] s']; auto; unfold mx in HW2; unfold region_only, untouched, mx; tauto. }
  specialize (CM s2 C2).
  destruct (mmap_remote pg base sz s2) as [[r| | | |] s3]; try contradiction.
  2:{ right; right; right; left. auto. }
  2:{ unfold die_post. tauto. }
  destruct CM as [-> CM].
  unfold obind at 1, oput at 1. unfold lift at 1.
  destruct CM as [Hrg CM].
  pose proof (m_choice _ s3 CM) as C3. clear CM C2.
  set (o1 := with_kpta (with_info (with_hdr o0 h') (p_infos0 p)) base).
  assert (HO1 : o_kpta o1 = base /\ o_hdr o1 = Some h' /\ o_info o1 = Some (p_infos0 p))
    by (repeat split).
  destruct HO1 as (O1 & O2 & O3). clearbody o1.
  assert (ELate : forall o s, o_kpta o = base -> o_hdr o = Some h' -> region_only s ->
     forall l, o_info o = Some l -> Forall (fun i => is_applied i = false) l -> err_post o s).
  { intros o s K1 K2 K3 l K4 K5. right; right; right; right; left. splits; auto. exists l. auto. }
  destruct (choice s3) as [[[]| | | |] s4]; try contradiction.
  2:{ eapply ELate; eauto. split; auto. }
  2:{ right; left. split; auto. }
  unfold obind at 1, oget at 1. rewrite O1.
  case_eq (p_link p base h'); [intros [img jt] Elink|intros Elink].
  2:{ unfold ofail at 1. eapply ELate; eauto. split; auto. }
  destruct (P11 _ _ _ _ Elink) as (G1 & G2 & G3 & G4).
  pose proof (Hent img jt Elink) as Hen.
  unfold obind at 1, oput at 1.
  set (o2 := with_info o1 (infos_of img off n)).
  assert (HO2 : o_kpta o2 = base /\ o_hdr o2 = Some h' /\ o_info o2 = Some (infos_of img off n))
    by (repeat split; auto).
  destruct HO2 as (N1 & N2 & N3). clearbody o2. clear O1 O2 O3 o1.
  assert (E2 : forall s, region_only s -> err_post o2 s) by (intros; eapply ELate; eauto).
  pose proof (zlen_nonneg jt) as Hjt. pose proof (zlen_nonneg img) as Himg.
  pose proof (region_bounds A jent pg HM p off n HP base Hrg) as (B1 & B2 & B3).
  fold sz in B2, B3. unfold task_size in B2. unfold hdr_size in *.
  assert (Hh : zlen h' = 504) by (unfold zlen; rewrite L1; reflexivity).
  set (EO := get32 h' h_elf_offset) in *. set (UO := get32 h' h_user_undo) in *.
  assert (Hnn : 0 <= a_hunk A * Z.of_nat n) by (clear - HM1; nia).
  assert (HE : u64 (base + EO) = base + EO).
  { clear - B1 B2 L6 L8 L10 L15 Hnn Himg G1 Hjt P7. apply u64_small. change (2 ^ 64) with 18446744073709551616. change (2 ^ 47) with 140737488355328 in B2. lia. }
  (* the image *)
  unfold obind at 1. unfold lift at 1. rewrite HE.
  pose proof (m_inside (fun m => outside_same m /\ mapped m base sz)
    (fun m => outside_same m /\ mapped m base sz /\ written m (base + EO) img)
    (base + EO) img ltac:(lia) ltac:(lia) Hrg ltac:(auto)) as W1.
  assert (W1' := W1 ltac:(intros m [J1 J2]; splits;
     [apply inside_write; auto; lia|apply mset_mapped; auto|apply written_self])).
  specialize (W1' s4 ltac:(unfold mx in *; tauto)). clear W1 C3.
  destruct (mem_write (base + EO) img s4) as [[[]| | | |] s5]; try contradiction; auto.
  2:{ right; left. exact W1'. }
  (* the header *)
  unfold obind at 1. unfold lift at 1.
  pose proof (m_inside (fun m => outside_same m /\ mapped m base sz /\ written m (base + EO) img)
    (fun m => outside_same m /\ mapped m base sz /\ region_written A jent pg p off n base img m)
    base h' ltac:(lia) ltac:(lia) Hrg ltac:(tauto)) as W2.
  assert (W2' := W2 ltac:(intros m (J1 & J2 & J3); splits;
     [apply inside_write; auto; lia|apply mset_mapped; auto|];
     split; [apply written_self|apply written_other; auto; fold h' EO; lia])).
  specialize (W2' s5 W1'). clear W2 W1'.
  destruct (mem_write base h' s5) as [[[]| | | |] s6]; try contradiction; auto.
  2:{ right; left. exact W2'. }
  (* the jump table *)
  unfold obind at 1.
  assert (W3 : match (if p_undef p =? 0 then oret tt
                      else lift (mem_write (u64 (base + get32 h' h_jmp_offset)) jt)) o2 s6 with
     | (Ret _, o, s) => o = o2 /\ mx (fun m x => (outside_same m /\ mapped m base sz /\
          region_written A jent pg p off n base img m) /\ x base = false) s
     | (Err, o, s) => o = o2 /\ region_only s
     | (Die, o, s) => region_only s
     | _ => False end).
  { destruct (Z.eqb_spec (p_undef p) 0) as [Z0|Z0]; [unfold oret; auto|]. unfold lift.
    specialize (L4 Z0). specialize (L5 Z0). rewrite L4.
    rewrite u64_small by (change (2 ^ 64) with 18446744073709551616; change (2 ^ 47) with 140737488355328 in B2; lia).
    pose proof (m_inside (fun m => outside_same m /\ mapped m base sz /\ region_written A jent pg p off n base img m)
      (fun m => outside_same m /\ mapped m base sz /\ region_written A jent pg p off n base img m)
      (base + 504) jt ltac:(lia) ltac:(lia) Hrg ltac:(tauto)) as W3.
    assert (W3' := W3 ltac:(intros m (J1 & J2 & J3 & J4); splits;
     [apply inside_write; auto; lia|apply mset_mapped; auto|];
     split; [apply written_other; auto; fold h'; lia|apply written_other; auto; fold h' EO; lia])).
    specialize (W3' s6 W2'). clear W3.
    destruct (mem_write (base + 504) jt s6) as [[[]| | | |] s7]; auto. }
  destruct ((if p_undef p =? 0 then oret tt else lift (mem_write (u64 (base + get32 h' h_jmp_offset)) jt)) o2 s6)
    as [[[[]| | | |] o3] s7]; try contradiction.
  2:{ destruct W3 as [-> W3]. auto. }
  2:{ right; left. exact W3. }
  destruct W3 as [-> W3]. clear W2'.
  (* safety check *)
  unfold obind at 1. unfold lift at 1.
  pose proof (m_choice _ s7 W3) as C4. clear W3.
  destruct (choice s7) as [[[]| | | |] s8]; try contradiction.
  2:{ apply E2. unfold mx in C4. split; auto. unfold mx. tauto. }
  2:{ right; left. unfold mx in C4. split; auto. unfold mx. tauto. }
  (* hunks *)
  assert (ST : stage A jent pg p off n m0 base img 0 o2 s8).
  { unfold stage. splits; auto. exists (infos_of img off n). unfold mx in C4.
    destruct C4 as ((J1 & J2 & J3) & J4). splits; auto.
    - split; [apply infos_of_length|auto].
    - intros x Hx _. apply J1. exact Hx.
    - intros j d Hr. split; [lia|]. intros _. split.
      + intros k Hk. apply J1. destruct Hen as [He _]. specialize (He j d Hr).
        unfold in_range. fold H in Hk. lia.
      + apply Forall_nth_flags. exact G4. }
  unfold obind at 1.
  assert (HMk : machine_ok A jent pg) by (constructor; assumption).
  assert (HPk : patch_ok A jent pg p off n) by (constructor; assumption).
  pose proof (apply_hunks_triple A jent pg HMk p off n HPk m0 base Hrg img jt Elink Hen n 0 eq_refl o2 s8 ST) as HH.
  fold h' in HH.
  destruct (apply_hunks A h' 0 n o2 s8) as [[[[]| | | |] o4] s9]; try contradiction.
  2:{ right; right; right; right; right. exists img, jt. auto. }
  2:{ right; right. exists img, jt. auto. }
  (* mprotect *)
  unfold obind at 1. unfold lift at 1. destruct HH as (K1 & K2 & l & K3 & K4 & K5).
  set (len := if p_data_off p =? 0 then sz else u64 (EO + p_data_off p)).
  assert (Hdo : p_data_off p < 2 ^ 32).
  { clear - P8 P5 P4 P7 Hnn HM4 HM3. destruct HM3 as (kk & Hkk & Epg).
    assert (0 < 2 ^ kk) by (apply Z.pow_pos_nonneg; lia).
    assert (0 <= p_undef p * jent) by nia. lia. }
  assert (HEO : EO < 2 ^ 32) by (clear - L8 L10 L15 Hnn P7; lia).
  assert (Hlen : 0 < len < 2 ^ 33).
  { clear - Hdo HEO L6 P6 L15 len. unfold len. destruct (p_data_off p =? 0); [lia|].
    rewrite u64_small by (change (2 ^ 64) with 18446744073709551616; lia). lia. }
  assert (Hup : base < base + round_up len pg).
  { clear - HM3 Hlen. destruct HM3 as (kk & Hkk & Epg).
    assert (2 ^ 12 <= 2 ^ kk <= 2 ^ 16) by (split; apply Z.pow_le_mono_r; lia).
    rewrite Epg. pose proof (round_up_bounds len kk ltac:(lia) ltac:(lia) ltac:(lia)). lia. }
  clearbody len.
  pose proof (m_mprotect (fun m x => frame A jent pg p off n m0 base img m /\ mapped m base sz /\
      region_written A jent pg p off n base img m /\
      hunks_at A jent pg p off n m0 base img n m l /\ x base = false) pg base len
    (fun m x => frame A jent pg p off n m0 base img m /\ mapped m base sz /\
      region_written A jent pg p off n base img m /\
      hunks_at A jent pg p off n m0 base img n m l /\ x base = true)
    (fun m x => frame A jent pg p off n m0 base img m /\ mapped m base sz /\
      region_written A jent pg p off n base img m /\
      hunks_at A jent pg p off n m0 base img n m l)) as MP.
  assert (MP1 := MP ltac:(intros m x Hx; splits; apply Hx)). clear MP.
  assert (MP2 := MP1 ltac:(intros m x x' Hx _ Hx'; specialize (Hx' base);
    replace ((base <=? base) && (base <? base + round_up len pg)) with true in Hx' by lia;
    splits; try exact Hx'; apply Hx)). clear MP1.
  specialize (MP2 s9 K5). clear K5.
  assert (HAS : forall m, hunks_at A jent pg p off n m0 base img n m l -> all_saved A jent pg p off n m0 base img m).
  { intros m Hh1 j d Hr. apply (Hh1 j d Hr).
    eapply replaces_bound; eauto. }
  destruct (mprotect_rx_remote pg base len s9) as [[[]| | | |] s10]; try contradiction.
  - unfold oret. split; [reflexivity|]. exists img, jt. splits; auto. exists l. splits; auto; apply MP2.
  - unfold mx in MP2. destruct MP2 as (Q1 & Q2 & Q3 & Q4).
    right; right; right; right; right. exists img, jt. splits; auto.
    unfold err_inv. splits; auto. exists l. splits; auto.
    + eapply hunks_recoverable; eauto.
    + intros _. splits; auto. intros j d Hr. apply (Q4 j d Hr). eapply replaces_bound; eauto.
  - unfold mx in MP2. destruct MP2 as (Q1 & Q2 & Q3 & Q4).
    right; right. exists img, jt. splits; auto. split; auto.
Qed.

End Object.
