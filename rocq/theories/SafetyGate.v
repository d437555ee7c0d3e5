(** Nothing outside the patch's own region is written before the safety check has
    passed. *)
From Coq Require Import ZArith List Bool Lia ZifyBool ZifyNat.
From Verif Require Import Base BaseProofs RemoteModel JumpModel EngineModel EngineSpec LayoutProofs
  EngineProofs ApplyProofs PeekProofs.
Import ListNotations.
Open Scope Z_scope.
Ltac Zify.zify_post_hook ::= Z.div_mod_to_equations.

Section Gate.
Variable check : list info -> M unit.
Hypothesis Hcheck : forall l s, sm (snd (check l s)) = sm s.
Variable A : arch.
Variables jent pg : Z.
Hypothesis HM : machine_ok A jent pg.
Variable p : patch.
Variable off : Z.
Variable n : nat.
Hypothesis HP : patch_ok A jent pg p off n.
Let h' := region_hdr A jent pg p off n.
Let sz := region_size A jent pg p off n.
Variable o0 : obj.
Hypothesis Hfr : fresh o0 p.
Variable s0 : st.
Let base := o_find o0 sz.

Definition same_outside (s : st) : Prop := forall x, ~ in_range x base sz -> sm s x = sm s0 x.
Definition passed : Prop := exists img jt s1 s2, p_link p base h' = Some (img, jt) /\
  check (infos_of img off n) s1 = (Ret tt, s2) /\ same_outside s1.

Lemma gate_lift {X} (x : M X) o s (P : mem -> Prop) :
  (forall s, P (sm s) -> P (sm (snd (x s)))) -> P (sm s) ->
  P (sm (snd (lift x o s))) .
Proof.
  intros H1 H2. unfold lift. specialize (H1 s H2). destruct (x s) as [r s']. exact H1.
Qed.

Lemma choice_mem s : sm (snd (choice s)) = sm s.
Proof.
  pose proof (m_choice (fun m _ => m = sm s) s eq_refl) as C.
  destruct (choice s) as [[[]| | | |] s']; cbn [snd]; unfold mx in C; auto; contradiction.
Qed.

Lemma apply_gate :
  same_outside (snd (object_apply_patch_with A jent pg check o0 s0)) \/ passed.
Proof.
  unfold object_apply_patch_with. unfold obind at 1, oget at 1.
  destruct Hfr as [F1 F2 F3 F4 F5]. rewrite F1, F2.
  assert (U0 : same_outside s0) by (intros x _; reflexivity).
  unfold obind at 1. unfold lift at 1.
  pose proof (choice_mem s0) as C1.
  destruct (choice s0) as [[[]| | | |] s1]; cbn [snd] in C1;
    try (left; intros x _; cbn [snd]; rewrite C1; reflexivity).
  unfold obind at 1, oput at 1. unfold obind at 1.
  destruct (applied_by_id o0 (hdr_str (p_hdr p) h_id)).
  { left. intros x _. cbn. rewrite C1. reflexivity. }
  unfold oret at 1. rewrite (po_info _ _ _ _ _ _ HP).
  unfold obind at 1, oput at 1. unfold obind at 1.
  set (o1 := with_info (with_hdr o0 (p_hdr p)) (p_infos0 p)).
  assert (C2 : sm (snd ((if p_undef p =? 0 then oret tt else lift choice) o1 s1)) = sm s0).
  { destruct (p_undef p =? 0); [exact C1|]. unfold lift. pose proof (choice_mem s1) as C2.
    destruct (choice s1); cbn [snd] in *. congruence. }
  destruct ((if p_undef p =? 0 then oret tt else lift choice) o1 s1) as [[[[]| | | |] o2] s2];
    cbn [snd] in C2; try (left; intros x _; cbn [snd]; rewrite C2; reflexivity).
  assert (EL : layout A jent pg (p_hdr p) (p_undef p) off n = (h', sz)).
  { unfold h', sz, region_hdr, region_size. destruct (layout _ _ _ _ _ _ _); reflexivity. }
  rewrite EL. clear EL o1.
  unfold obind at 1, oput at 1. unfold obind at 1.
  pose proof (facts A jent pg HM p off n HP) as LF. fold h' sz in LF.
  destruct LF as [L1 L2 L3 L4 L5 L6 L7 L8 L9 L10 L11 L12 L13 L14 L15 L16 L17].
  destruct HM as [HM1 HM2 HM3 HM4].
  destruct HP as [P1 P2 P3 P4 P5 P6 P7 P8 P9 P10 P11].
  set (oo := with_info (with_hdr o0 h') (p_infos0 p)).
  replace (allocate_patch pg sz oo s2) with
    (match (if base =? 0 then (Err, s2) else mmap_remote pg base sz s2) with
     | (Ret r, s) => let '(x, s') := choice s in (x, with_kpta oo r, s')
     | (Err, s) => (Err, oo, s) | (Die, s) => (Die, oo, s)
     | (Hang, s) => (Hang, oo, s) | (UB, s) => (UB, oo, s) end).
  2:{ unfold allocate_patch, obind, oget, lift, ofail, oput.
      change (o_find oo sz) with base. destruct (base =? 0); [reflexivity|].
      destruct (mmap_remote pg base sz s2) as [[r| | | |] s3]; reflexivity. }
  clearbody oo.
  destruct (Z.eqb_spec base 0) as [Eb|Eb].
  { left. intros x _. cbn. rewrite C2. reflexivity. }
  pose proof (m_mmap (fun m _ => m = sm s0) pg base sz
     (fun m _ => (forall x, ~ in_range x base sz -> m x = sm s0 x))
     (fun m _ => (forall x, ~ in_range x base sz -> m x = sm s0 x))) as MM.
  assert (MM1 := MM ltac:(intros m x -> y _; reflexivity)). clear MM.
  rewrite L16 in MM1.
  assert (MM2 := MM1 ltac:(intros m x -> _; split; intros y Hy; apply mmap_fixed_out; exact Hy)).
  specialize (MM2 s2 C2). clear MM1.
  destruct (mmap_remote pg base sz s2) as [[r| | | |] s3]; try contradiction;
    try (left; exact MM2).
  destruct MM2 as (-> & Hrg & SO3'). unfold mx in SO3'. fold (same_outside s3) in SO3'.
  pose proof (choice_mem s3) as C3.
  destruct (choice s3) as [[[]| | | |] s3a]; cbn [snd] in C3;
    try (left; intros x Hx; cbn [snd]; rewrite C3; apply SO3'; exact Hx).
  assert (SO3 : same_outside s3a) by (intros x Hx; rewrite C3; apply SO3'; exact Hx).
  clear SO3' C3 s3. rename s3a into s3.
  unfold obind at 1, oget at 1.
  replace (o_kpta (with_kpta oo base)) with base by reflexivity.
  case_eq (p_link p base h'); [intros [img jt] Elink|intros Elink].
  2:{ left. exact SO3. }
  destruct (P11 _ _ _ _ Elink) as (G1 & G2 & G3 & G4).
  unfold obind at 1, oput at 1.
  set (o3 := with_info (with_kpta oo base) (infos_of img off n)). clearbody o3.
  pose proof (zlen_nonneg jt) as Hjt. pose proof (zlen_nonneg img) as Himg.
  pose proof (region_bounds A jent pg HM p off n HP base Hrg) as (B1 & B2 & B3).
  fold sz in B2, B3. unfold task_size in B2. unfold hdr_size in *.
  assert (Hh : zlen h' = 504) by (unfold zlen; rewrite L1; reflexivity).
  set (EO := get32 h' h_elf_offset) in *. set (UO := get32 h' h_user_undo) in *.
  assert (Hnn : 0 <= a_hunk A * Z.of_nat n) by (clear - HM1; nia).
  assert (HE : u64 (base + EO) = base + EO).
  { clear - B1 B2 L6 L8 L10 L15 Hnn Himg G1 Hjt P7. apply u64_small. change (2 ^ 64) with 18446744073709551616. change (2 ^ 47) with 140737488355328 in B2. lia. }
  rewrite HE.
  assert (WR : forall a bs s, base <= a -> a + zlen bs <= base + sz -> same_outside s ->
     same_outside (snd (mem_write a bs s))).
  { intros a bs s W1 W2 Ho.
    pose proof (m_write (fun m _ => (forall x, ~ in_range x base sz -> m x = sm s0 x)) a bs
      (fun m _ => (forall x, ~ in_range x base sz -> m x = sm s0 x))
      (fun m _ => (forall x, ~ in_range x base sz -> m x = sm s0 x))) as MW.
    assert (K : forall k (m : mem), (forall x, ~ in_range x base sz -> m x = sm s0 x) ->
       forall x, ~ in_range x base sz -> mset m a (firstn k bs) x = sm s0 x).
    { intros k m Hm x Hx. rewrite mset_out; [auto|]. unfold in_range in *.
      pose proof (firstn_length k bs). unfold zlen in *. clear - W1 W2 H Hx. lia. }
    assert (K0 : forall (m : mem), (forall x, ~ in_range x base sz -> m x = sm s0 x) ->
       forall x, ~ in_range x base sz -> mset m a bs x = sm s0 x)
      by (intros m Hm; rewrite <- (firstn_all bs); apply K; exact Hm).
    assert (MW1 := MW (fun m x Hm _ => K0 m Hm)).
    assert (MW2 := MW1 (fun m x k Hm _ => K k m Hm)).
    specialize (MW2 s Ho). destruct (mem_write a bs s) as [[[]| | | |] s']; cbn [snd]; auto; contradiction. }
  unfold obind at 1. unfold lift at 1.
  pose proof (WR (base + EO) img s3 ltac:(lia) ltac:(lia) SO3) as W1.
  destruct (mem_write (base + EO) img s3) as [[[]| | | |] s4]; cbn [snd] in W1; try (left; exact W1).
  unfold obind at 1. unfold lift at 1.
  pose proof (WR base h' s4 ltac:(lia) ltac:(lia) W1) as W2.
  destruct (mem_write base h' s4) as [[[]| | | |] s5]; cbn [snd] in W2; try (left; exact W2).
  unfold obind at 1.
  assert (W3 : same_outside (snd ((if p_undef p =? 0 then oret tt
        else lift (mem_write (u64 (base + get32 h' h_jmp_offset)) jt)) o3 s5))).
  { destruct (Z.eqb_spec (p_undef p) 0) as [Z0|Z0]; [exact W2|].
    specialize (L4 Z0). specialize (L5 Z0). rewrite L4.
    rewrite u64_small by (change (2 ^ 64) with 18446744073709551616; change (2 ^ 47) with 140737488355328 in B2; lia).
    unfold lift. pose proof (WR (base + 504) jt s5 ltac:(lia) ltac:(lia) W2) as W3.
    destruct (mem_write (base + 504) jt s5) as [r s6]; exact W3. }
  destruct ((if p_undef p =? 0 then oret tt
        else lift (mem_write (u64 (base + get32 h' h_jmp_offset)) jt)) o3 s5) as [[[[]| | | |] o4] s6];
    cbn [snd] in W3; try (left; exact W3).
  unfold obind at 1. unfold lift at 1.
  pose proof (Hcheck (infos_of img off n) s6) as HC6.
  destruct (check (infos_of img off n) s6) as [[[]| | | |] s7] eqn:Ec; cbn [snd] in HC6;
    try (left; intros x Hx; cbn [snd]; rewrite HC6; apply W3; exact Hx).
  right. exists img, jt, s6, s7. auto.
Qed.

End Gate.

Section Gate2.
Variable check : list info -> M unit.
Hypothesis Hcheck : forall l s, sm (snd (check l s)) = sm s.
Variable A : arch.
Variable pg : Z.

Lemma pop_mem s : sm (snd (pop s)) = sm s.
Proof. apply pop_mx. Qed.

Lemma pread_mem a k s : sm (snd (pread a k s)) = sm s.
Proof.
  unfold pread. pose proof (pop_mem s). destruct (pop s) as [an s']. cbn [snd] in *.
  repeat match goal with |- context [match ?x with _ => _ end] => destruct x end; cbn [snd]; auto.
Qed.

Lemma read_mem a k s : sm (snd (mem_read a k s)) = sm s.
Proof.
  pose proof (m_read (fun m _ => m = sm s) a k s eq_refl) as C.
  destruct (mem_read a k s) as [[x| | | |] s']; cbn [snd]; unfold mx in C; try contradiction; try tauto.
Qed.

Lemma peek_mem it size a s : sm (snd (iter_peek pg it size a s)) = sm s.
Proof.
  unfold iter_peek. destruct (pg <? size).
  - pose proof (read_mem a (Z.to_nat size) s) as H.
    destruct (mem_read a (Z.to_nat size) s) as [[x| | | |] s']; exact H.
  - destruct (_ || _).
    + unfold bind. pose proof (pread_mem a (Z.to_nat pg) s) as H.
      destruct (pread a (Z.to_nat pg) s) as [[[bs|]| | | |] s']; cbn [snd] in *; auto;
        cbv zeta; repeat match goal with |- context [match ?x with _ => _ end] => destruct x end; exact H.
    + destruct (slice _ _ _); reflexivity.
Qed.

Lemma read_infos_mem fuel : forall it a acc s, sm (snd (read_infos pg fuel it a acc s)) = sm s.
Proof.
  induction fuel as [|f IH]; intros it a acc s; cbn [read_infos]; [reflexivity|].
  unfold bind. pose proof (peek_mem it info_size a s) as H.
  destruct (iter_peek pg it info_size a s) as [[[it' [bs|]]| | | |] s']; cbn [snd] in *; auto.
  destruct (is_end_info (info_of bs)); [exact H|]. rewrite IH. exact H.
Qed.

Lemma find_info_mem fuel o s : sm (snd (find_applied_info pg fuel o s)) = sm s.
Proof.
  unfold find_applied_info, obind at 1, oget at 1.
  destruct (o_info o); [reflexivity|]. destruct (o_hdr o) as [h|]; [|reflexivity].
  destruct (negb _); [reflexivity|]. unfold obind, lift.
  pose proof (read_infos_mem fuel (iter_init pg) (u64 (o_kpta o + get32 h h_user_info)) [] s) as H.
  destruct (read_infos pg fuel (iter_init pg) _ [] s) as [[l| | | |] s']; exact H.
Qed.

Lemma unapply_gate fuel cf o s :
  sm (snd (object_unapply_patch_with A pg check fuel cf o s)) = sm s \/
  exists o1 s1 s2, find_applied_info pg fuel o s = (Ret tt, o1, s1) /\ sm s1 = sm s /\
    check (match o_info o1 with Some l => l | None => [] end) s1 = (Ret tt, s2).
Proof.
  unfold object_unapply_patch_with, obind at 1.
  pose proof (find_info_mem fuel o s) as H.
  destruct (find_applied_info pg fuel o s) as [[[[]| | | |] o1] s1]; cbn [snd] in H; try (left; exact H).
  unfold obind at 1, oget at 1.
  unfold obind at 1, lift at 1. set (l := match o_info o1 with Some l => l | None => [] end).
  pose proof (Hcheck l s1) as HC.
  destruct (check l s1) as [[[]| | | |] s2] eqn:Ec; cbn [snd] in HC;
    try (left; cbn [snd]; congruence).
  right. exists o1, s1, s2. auto.
Qed.
End Gate2.
