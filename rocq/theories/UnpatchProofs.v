(** Cancelling a patch in a later run, when no remote operation fails. *)
From Coq Require Import ZArith List Bool Lia ZifyBool ZifyNat.
From Verif Require Import Base BaseProofs RemoteModel JumpModel EngineModel EngineSpec LayoutProofs
  EngineProofs ApplyProofs PeekProofs.
Import ListNotations.
Open Scope Z_scope.
Ltac Zify.zify_post_hook ::= Z.div_mod_to_equations.

(** Strings in the header survive the filling in of the offsets. *)
Lemma cstr_ext l l' s : cstr l = Some s -> (length s < length l')%nat ->
  (forall k, (k <= length s)%nat -> nth k l' 0 = nth k l 0) -> cstr l' = Some s.
Proof.
  revert l' s. induction l as [|b l IH]; intros l' s Hc Hl He; [discriminate|].
  destruct l' as [|b' l']; [cbn in Hl; lia|].
  pose proof (He 0%nat ltac:(lia)) as H0. cbn in H0. subst b'.
  cbn [cstr] in *. destruct (b =? 0); [exact Hc|].
  destruct (cstr l) as [t|] eqn:E; [|discriminate]. apply some_inj in Hc. subst s.
  rewrite (IH l' t eq_refl); [reflexivity|cbn in Hl; lia|].
  intros k Hk. apply (He (S k)). cbn. lia.
Qed.
Lemma hdr_str_ext l l' off s : hdr_str l off = Some s -> (off + length s < length l')%nat ->
  (forall k, (off <= k <= off + length s)%nat -> nth k l' 0 = nth k l 0) -> hdr_str l' off = Some s.
Proof.
  unfold hdr_str. intros H1 H2 H3. eapply cstr_ext; eauto.
  - rewrite skipn_length. lia.
  - intros k Hk. rewrite !nth_skipn. apply H3. lia.
Qed.
Lemma str_same_refl s : str_same (Some s) (Some s) = true.
Proof. cbn. now apply list_eqb_eq. Qed.

Lemma nth_infos_of bs n : forall off j, 0 <= off -> (j < n)%nat ->
  nth j (infos_of bs off n) zinfo = info_of (skipn (Z.to_nat (off + info_size * Z.of_nat j)) bs).
Proof.
  induction n as [|n IH]; intros off j Ho Hj; [lia|]. cbn [infos_of].
  destruct j as [|j]; cbn [nth].
  - do 2 f_equal. unfold info_size. lia.
  - rewrite IH by (unfold info_size; lia). do 2 f_equal. unfold info_size. lia.
Qed.

Lemma info_of_ext l l' : (44 <= length l)%nat -> (44 <= length l')%nat ->
  (forall k, (k < 44)%nat -> nth k l' 0 = nth k l 0) -> info_of l' = info_of l.
Proof.
  intros H1 H2 H3. unfold info_of.
  f_equal; apply field_ext; try lia; intros k Hk; apply H3; lia.
Qed.

Lemma is_end_zero l : (24 <= length l)%nat -> (forall k, (k < 24)%nat -> nth k l 0 = 0) ->
  is_end_info (info_of l) = true.
Proof.
  intros H1 H2.
  assert (HF : forall o k, (o + k <= 24)%nat -> field l o k = 0).
  { intros o k Hk. rewrite (field_ext l (repeat 0 24) o k); [|lia|rewrite repeat_length; lia|].
    - unfold field.
      assert (HR : forall q, le_val (firstn k (skipn o (repeat 0 q))) = 0).
      { intros q. generalize o. clear. intros o. revert o k.
        induction q as [|q IH]; intros o k; [destruct o, k; reflexivity|].
        destruct o as [|o]; cbn [repeat skipn]; [|apply IH].
        destruct k as [|k]; [reflexivity|]. cbn [firstn le_val].
        specialize (IH 0%nat k). cbn [skipn] in IH. rewrite IH. reflexivity. }
      apply HR.
    - intros q Hq. rewrite H2 by lia.
      symmetry. apply nth_repeat. }
  unfold is_end_info, info_of. cbn [daddr saddr dlen slen]. rewrite !HF by lia. reflexivity.
Qed.

(** Whether an address belongs to an entry is decidable. *)
Lemma classic_entry l H x : at_entry l H x \/ ~ at_entry l H x.
Proof.
  induction l as [|i l IH].
  - right. intros (j & d & (i & Hi & _) & _). destruct j; discriminate.
  - destruct IH as [(j & d & (i' & Hi & Hn & Hd) & Hx)|IH].
    + left. exists (S j), d. split; auto. exists i'. auto.
    + destruct (is_new_func i) eqn:En.
      * right. intros (j & d & (i' & Hi & Hn & Hd) & Hx). destruct j as [|j].
        -- cbn in Hi. apply some_inj in Hi. congruence.
        -- apply IH. exists j, d. split; auto. exists i'. auto.
      * assert (HD : in_range x (daddr i) H \/ ~ in_range x (daddr i) H) by (unfold in_range; lia).
        destruct HD as [C|C].
        -- left. exists 0%nat, (daddr i). split; auto. exists i. auto.
        -- right. intros (j & d & (i' & Hi & Hn & Hd) & Hx). destruct j as [|j].
           ++ cbn in Hi. apply some_inj in Hi. subst. auto.
           ++ apply IH. exists j, d. split; auto. exists i'. auto.
Qed.

Section Unpatch.
Variable A : arch.
Variables jent pg : Z.
Hypothesis HM : machine_ok A jent pg.
Variable p : patch.
Variable off : Z.
Variable n : nat.
Hypothesis HP : patch_ok A jent pg p off n.

Let H := a_hunk A.
Let h' := region_hdr A jent pg p off n.
Let sz := region_size A jent pg p off n.

Variable m0 : mem.
Variable base : Z.
Hypothesis Hrange : range_ok pg base sz = true.
Variable img jt : list Z.
Hypothesis Hlink : p_link p base h' = Some (img, jt).
Let infos := infos_of img off n.
Hypothesis Hent : entries_ok infos H base sz.
Hypothesis Htab : table_ok img off n.
Variables id bid : list Z.
Hypothesis Hlab : labelled (p_hdr p) id bid.

(** The region still holds the header and the table. *)
Definition books (m : mem) : Prop :=
  written m base h' /\
  forall k, 0 <= k < info_size * Z.of_nat n + 24 ->
    m (base + get32 h' h_elf_offset + off + k) = Some (nth (Z.to_nat (off + k)) img 0).

Lemma region_written_books m : region_written A jent pg p off n base img m -> books m.
Proof.
  intros [W1 W2]. split; auto. intros k Hk. fold h' in W2.
  destruct HP as [P1 P2 P3 P4 P5 P6 P7 P8 P9 P10 P11]. destruct Htab as [T1 T2 T3 T4].
  specialize (W2 (off + k) ltac:(unfold info_size in *; lia)).
  replace (base + get32 h' h_elf_offset + off + k)
    with (base + get32 h' h_elf_offset + (off + k)) by lia. exact W2.
Qed.

Lemma unpatch_core fuel s : so s = [] -> (n < fuel)%nat -> sx s base = true ->
  frame A jent pg p off n m0 base img (sm s) -> mapped (sm s) base sz -> books (sm s) ->
  all_saved A jent pg p off n m0 base img (sm s) ->
  exists s', unpatch_object A pg fuel bid id base s = (Ret 1, s') /\
    (forall x, in_range x base sz -> sm s' x = None) /\
    (forall x, ~ in_range x base sz -> sm s' x = m0 x) /\
    (forall x, ~ in_range x base sz -> sx s' x = sx s x).
Proof.
  intros Hso Hf Hx Hfr Hmap Hbk Hsv.
  pose proof (facts A jent pg HM p off n HP) as LF. fold h' sz in LF.
  pose proof (nums A jent pg HM p off n HP base Hrange img jt Hlink) as HN. fold h' sz in HN.
  pose proof (po_info_off _ _ _ _ _ _ HP) as Hoff0.
  destruct HN as (N1 & N2 & N3 & N4 & N5 & N6 & N7 & N8 & N9 & N10).
  assert (Hpg : 4096 <= pg <= 65536).
  { destruct HM as [_ _ (kk & Hkk & Epg) _]. rewrite Epg. change 4096 with (2 ^ 12). change 65536 with (2 ^ 16).
    split; apply Z.pow_le_mono_r; lia. }
  assert (Hsz : pg <= sz).
  { pose proof (lf_sz_pg _ _ _ _ _ _ _ _ _ LF) as Hd. apply Z.divide_pos_le; [apply N9|]. apply Z.mod_divide; [lia|exact Hd]. }
  set (EO := get32 h' h_elf_offset) in *. set (UO := get32 h' h_user_undo) in *.
  change (2 ^ 47) with 140737488355328 in *.
  (* recognising the mapping *)
  unfold unpatch_object, recognise_patch, mem_read, pop. rewrite Hso.
  destruct (mread_some (sm s) base 1024) as [bs Hbs].
  { intros x Hx0. apply Hmap. unfold in_range in *. lia. }
  rewrite Hbs, Hx. cbn [andb].
  pose proof (proj1 (mread_spec _ _ _ _) Hbs) as [HL HD].
  destruct Hbk as [HB1 HB2]. fold EO in HB2.
  assert (Hhead : forall k, (k < 504)%nat -> nth k bs 0 = nth k h' 0).
  { intros k Hk. specialize (HB1 (Z.of_nat k)). unfold zlen in HB1. rewrite N8 in HB1.
    specialize (HB1 ltac:(lia)). rewrite HD in HB1 by (unfold in_range; lia).
    apply some_inj in HB1. rewrite Nat2Z.id in HB1. rewrite <- HB1. f_equal. lia. }
  assert (Hh0 : forall k, (k < 164)%nat -> nth k bs 0 = nth k (p_hdr p) 0).
  { intros k Hk. rewrite Hhead by lia. apply (lf_same _ _ _ _ _ _ _ _ _ LF). lia. }
  destruct Hlab as [B1 B2 B3 B4 B5]. unfold h_id, h_buildid in *.
  assert (M1 : cstr bs = Some magic).
  { change (cstr bs) with (hdr_str bs 0). eapply hdr_str_ext; [exact B1| |]; cbn [length magic].
    - lia.
    - intros k Hk. apply Hh0. lia. }
  assert (M2 : hdr_str bs 88 = Some bid).
  { eapply hdr_str_ext; [exact B4| |]; [lia|]. intros k Hk. apply Hh0. lia. }
  assert (M3 : hdr_str bs 8 = Some id).
  { eapply hdr_str_ext; [exact B2| |]; [lia|]. intros k Hk. apply Hh0. lia. }
  rewrite M1, str_same_refl. unfold h_id, h_buildid. rewrite M2, M3, !str_same_refl. cbn [andb].
  (* the header *)
  assert (Ehd : firstn (Z.to_nat hdr_size) bs = h').
  { apply list_ext.
    - rewrite firstn_length. change (Z.to_nat hdr_size) with 504%nat. lia.
    - intros k Hk. rewrite firstn_length in Hk. change (Z.to_nat hdr_size) with 504%nat in *.
      rewrite nth_firstn by lia. apply Hhead. lia. }
  rewrite Ehd.
  unfold object_unapply_patch, object_unapply_patch_with. unfold obind at 1. unfold find_applied_info.
  unfold obind at 1, oget at 1. cbn [o_info o_hdr o_kpta].
  assert (Hid : applied_by_id {| o_patch := None; o_is_patch := false; o_applied := [bs];
      o_hdr := Some h'; o_info := None; o_kpta := base; o_find := fun _ => 0 |} (hdr_str h' h_id) = true).
  { unfold applied_by_id. cbn [o_applied existsb]. unfold h_id. rewrite M3.
    assert (hdr_str h' 8 = Some id) as ->.
    { eapply hdr_str_ext; [exact B2| |]; [lia|]. intros k Hk. rewrite <- Hhead by lia. apply Hh0. lia. }
    rewrite str_same_refl. reflexivity. }
  rewrite Hid. cbn [negb].
  unfold obind at 1. unfold lift at 1.
  rewrite (lf_info _ _ _ _ _ _ _ _ _ LF). fold EO.
  destruct Htab as [T1 T2 T3 T4]. unfold info_size in *.
  rewrite u64_small by (change (2 ^ 64) with 18446744073709551616; lia).
  assert (Hzi : zlen infos = Z.of_nat n) by (unfold zlen, infos; rewrite infos_of_length; reflexivity).
  assert (Hroom : base + EO + off + 48 * (Z.of_nat n + 1) <= base + sz).
  { enough (UO + 128 <= sz) by lia.
    pose proof (lf_sz_pg _ _ _ _ _ _ _ _ _ LF) as D1.
    pose proof (lf_undo128 _ _ _ _ _ _ _ _ _ LF) as D2. fold UO in D2.
    destruct HM as [_ _ (kk & Hkk & Epg) _].
    assert (D3 : sz mod 128 = 0).
    { apply Z.mod_divide in D1; [|lia]. apply Z.mod_divide; [lia|].
      apply Z.divide_trans with pg; [|exact D1]. exists (2 ^ (kk - 7)). rewrite Epg.
      change 128 with (2 ^ 7). rewrite <- Z.pow_add_r by lia. f_equal. lia. }
    assert (UO < sz) by (clear - N5 N1 T1; nia).
    clear - D2 D3 H0. lia. }
  pose proof (T1 : (0 < n)%nat) as Tn.
  destruct (mread_some (sm s) (base + (off + EO) + 48 * zlen infos) 48) as [last Hlast].
  { intros x Hx0. apply Hmap. unfold in_range in *. lia. }
  assert (HRI : read_infos pg fuel (iter_init pg) (base + (off + EO)) [] s = (Ret infos, s)).
  { apply (read_infos_spec pg s Hso ltac:(unfold info_size; lia) infos (iter_init pg) (base + (off + EO)) [] fuel last);
      unfold info_size.
    - apply iter_init_ok. lia.
    - lia.
    - change (2 ^ 63) with 9223372036854775808. lia.
    - intros x Hx0. apply Hmap. unfold in_range in *. lia.
    - intros j b Hb Hj. unfold infos in Hj. rewrite infos_of_length in Hj.
      pose proof (proj1 (mread_spec _ _ _ _) Hb) as [HbL HbD].
      assert (Eb : info_of b = nth j infos zinfo).
      { unfold infos. rewrite nth_infos_of by lia. apply info_of_ext.
        - rewrite skipn_length. unfold zlen in T2. unfold info_size. lia.
        - lia.
        - intros k Hk. rewrite nth_skipn.
          specialize (HB2 (48 * Z.of_nat j + Z.of_nat k) ltac:(lia)).
          specialize (HbD (base + (off + EO) + 48 * Z.of_nat j + Z.of_nat k) ltac:(unfold in_range; lia)).
          replace (base + EO + off + (48 * Z.of_nat j + Z.of_nat k))
            with (base + (off + EO) + 48 * Z.of_nat j + Z.of_nat k) in HB2 by lia.
          rewrite HbD in HB2. apply some_inj in HB2. unfold info_size.
          replace (Z.to_nat (base + (off + EO) + 48 * Z.of_nat j + Z.of_nat k - (base + (off + EO) + 48 * Z.of_nat j)))
            with k in HB2 by lia. rewrite HB2. f_equal. lia. }
      split; [exact Eb|]. rewrite Eb. apply T3. apply nth_In. unfold infos. rewrite infos_of_length. lia.
    - exact Hlast.
    - pose proof (proj1 (mread_spec _ _ _ _) Hlast) as [HbL HbD].
      apply is_end_zero; [lia|]. intros k Hk. rewrite Hzi in HbD.
      specialize (HbD (base + (off + EO) + 48 * Z.of_nat n + Z.of_nat k) ltac:(unfold in_range; lia)).
      specialize (HB2 (48 * Z.of_nat n + Z.of_nat k) ltac:(lia)).
      replace (base + EO + off + (48 * Z.of_nat n + Z.of_nat k))
            with (base + (off + EO) + 48 * Z.of_nat n + Z.of_nat k) in HB2 by lia.
      rewrite HbD in HB2. apply some_inj in HB2.
      replace (Z.to_nat (base + (off + EO) + 48 * Z.of_nat n + Z.of_nat k - (base + (off + EO) + 48 * Z.of_nat n)))
            with k in HB2 by lia. rewrite HB2.
      specialize (T4 (Z.of_nat k) ltac:(lia)).
      etransitivity; [|exact T4]. f_equal. lia.
    - unfold infos. rewrite infos_of_length. lia. }
  rewrite HRI. unfold oput at 1.
  (* safety check, restoring *)
  unfold obind at 1, oget at 1. cbn [o_hdr o_info o_kpta with_info].
  unfold obind at 1. unfold lift at 1, choice at 1, pop at 1. rewrite Hso.
  fold UO. rewrite (u64_small (base + UO)) by (change (2 ^ 64) with 18446744073709551616; lia).
  set (K := fun _ : mem => True).
  assert (HTO : tab_ok off n img (fun _ => true) false 0 infos).
  { split; [unfold infos; rewrite infos_of_length; lia|]. intros i Hi. cbn. auto. }
  assert (HRs : restoring A jent pg p off n m0 base img (fun _ => true) K 0 (sm s)).
  { unfold restoring, K. repeat match goal with |- _ /\ _ => split end; auto; try lia; discriminate. }
  destruct (restore_quiet A jent pg HM p off n HP m0 base Hrange img jt Hlink Hent (fun _ => true) K
     ltac:(unfold K; auto) false infos 0 s HTO Hso HRs) as (s1 & ER & Hso1).
  pose proof (restore_triple A jent pg HM p off n HP m0 base Hrange img jt Hlink Hent (fun _ => true) K
     ltac:(unfold K; auto) false (fun x => x = sx s) infos 0 HTO s (conj HRs eq_refl)) as HT.
  fold h' UO in ER, HT. rewrite ER in HT. destruct HT as [HT HTx].
  unfold obind at 1. unfold lift at 1. rewrite ER.
  (* unmapping *)
  unfold obind at 1. unfold lift at 1. rewrite (lf_total _ _ _ _ _ _ _ _ _ LF).
  unfold munmap_remote, pop. rewrite Hso1. fold sz. rewrite Hrange. cbn [negb].
  unfold oret. rewrite (lf_sz_up _ _ _ _ _ _ _ _ _ LF).
  eexists. split; [reflexivity|]. cbn [sm sx with_map].
  destruct HT as (R1 & R2 & R3 & R4 & R5 & R6).
  split; [|split]; intros x Hx0.
  3:{ rewrite HTx. unfold in_range in Hx0. destruct ((base <=? x) && (x <? base + sz)) eqn:Eb; [lia|reflexivity]. }
  - apply munmap_in. exact Hx0.
  - rewrite munmap_out by exact Hx0.
    destruct (classic_entry infos H x) as [(j & d & Hr & Hxr)|Hno].
    + pose proof (R5 j d Hr eq_refl) as Ho.
      assert (Hj : (j < n)%nat) by (eapply replaces_bound; eauto).
      specialize (Ho Hj (x - d)). unfold in_range in Hxr. fold H in Ho.
      specialize (Ho ltac:(lia)). replace (d + (x - d)) with x in Ho by lia. exact Ho.
    + apply R1; auto.
Qed.

End Unpatch.
