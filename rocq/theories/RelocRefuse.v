(** Relocations whose value does not fit; the sections of a patch. *)
From Coq Require Import ZArith List Bool Lia ZifyBool ZifyNat.
From Verif Require Import Base BaseProofs BitTac JumpSpec JumpModel RelocModel RelocSpec RelocBits RelocProofs RelocA64 RelocRv RelocLa.
Import ListNotations.
Open Scope Z_scope.

Lemma fits_int_out v : ~ (- 2 ^ 31 <= sext 64 v < 2 ^ 31) -> fits_int v = false.
Proof.
  intros H. destruct (fits_int v) eqn:E; [|reflexivity]. exfalso. apply H.
  rewrite <- (fits_int_true v E). apply (sext_range 32). lia.
Qed.

Lemma sext64_u64 v : sext 64 (u64 v) = sext 64 v.
Proof. apply sext_eq_mod; [lia|]. apply u64_mod. lia. Qed.
Lemma sext64_dist v P : sext 64 (u64 (u64 v - u64 P)) = dist v P.
Proof. exact (off_eq v P). Qed.

Definition rv_value (ty X P : Z) : Z :=
  if existsb (Z.eqb ty) [57; 18; 19; 23] then dist X P else sext 64 X.

Lemma rv_refuses e c prev r st s :
  nth_error (v_syms st) (Z.to_nat (r_sym r)) = Some s ->
  rv_adjusts s (r_type r) = false ->
  In (r_type r) [1; 56; 57; 18; 19; 23; 26] ->
  ~ (- 2 ^ 31 <= rv_value (r_type r) (y_value s + r_addend r) (place c r) < 2 ^ 31) ->
  rv_reloc e c prev r st = Fail.
Proof.
  intros Hs Ha Hin Hv. unfold rv_reloc. destruct (_ <=? _); [reflexivity|].
  rewrite Hs, (rv_adjust_none _ _ _ _ Ha), Hs.
  assert (A : In (r_type r) [1; 56; 26] ->
    fits_int (u64 (y_value s + r_addend r)) = false).
  { intros I. apply fits_int_out. rewrite sext64_u64. intros R. apply Hv. unfold rv_value.
    destruct I as [I|[I|[I|[]]]]; rewrite <- I; exact R. }
  assert (B : In (r_type r) [57; 18; 19; 23] ->
    fits_int (u64 (u64 (y_value s + r_addend r) - u64 (t_addr c + r_offset r))) = false).
  { intros I. apply fits_int_out. rewrite sext64_dist. intros R. apply Hv. unfold rv_value.
    destruct I as [I|[I|[I|[I|[]]]]]; rewrite <- I; exact R. }
  unfold rv_apply. destruct Hin as [I|[I|[I|[I|[I|[I|[I|[]]]]]]]]; rewrite <- I in *;
    cbn [In] in A, B; unfold rv_ignored, R_RISCV_32_PCREL, R_RISCV_32, R_RISCV_SET32, R_RISCV_64, R_RISCV_JAL, R_RISCV_CALL,
    R_RISCV_CALL_PLT, R_RISCV_PCREL_HI20, R_RISCV_HI20; cbn [existsb Z.eqb Pos.eqb orb];
    first [rewrite A by tauto | rewrite B by tauto]; reflexivity.
Qed.

Lemma la_refuses c syms prev r s buf k :
  nth_error syms (Z.to_nat (r_sym r)) = Some s ->
  la_no_mark c s r ->
  In (r_type r, k) [(64, 17); (65, 22); (66, 27); (103, 21)] ->
  ~ (- 2 ^ k <= dist (y_value s + r_addend r) (place c r) < 2 ^ k) \/
  dist (y_value s + r_addend r) (place c r) mod 4 <> 0 ->
  la_reloc c syms prev r buf = Fail.
Proof.
  intros Hs [Hn1 Hn2] Hin Hv. unfold la_reloc. destruct (_ <=? _); [reflexivity|]. rewrite Hs.
  cbv zeta. destruct (_ =? u64 (-1)); [reflexivity|].
  assert (E : la_adjust c r s =? 1 = false).
  { destruct Hin as [I|[I|[I|[I|[]]]]]; injection I as T _; unfold la_adjust; rewrite <- T; reflexivity. }
  rewrite E.
  assert (R : la_range k (s64 (u64 (u64 (y_value s + r_addend r) - u64 (t_addr c + r_offset r)))) = false).
  { rewrite off_eq. destruct (la_range _ _) eqn:L; [|reflexivity]. exfalso.
    apply la_range_inv in L. unfold place in Hv. destruct L as [L1 L2]. destruct Hv; contradiction. }
  unfold la_apply. destruct Hin as [I|[I|[I|[I|[]]]]]; injection I as T K; rewrite <- T; rewrite <- K in R;
    unfold R_LARCH_NONE, R_LARCH_32, R_LARCH_64, R_LARCH_ADD32, R_LARCH_ADD64, R_LARCH_SUB32,
    R_LARCH_SUB64, R_LARCH_B16, R_LARCH_B21, R_LARCH_B26, R_LARCH_ABS_HI20, R_LARCH_ABS_LO12,
    R_LARCH_PCALA_HI20, R_LARCH_PCALA_LO12, R_LARCH_PCREL20_S2; cbn [Z.eqb Pos.eqb orb];
    cbv zeta; rewrite R; reflexivity.
Qed.

(** What is in reach is not refused. *)
Lemma store_some n buf loc v : 0 <= loc -> loc + Z.of_nat n <= zlen buf -> exists b, store n buf loc v = Next b.
Proof.
  intros L H. unfold store, splice. assert (E : zlen (le_bytes n v) = Z.of_nat n) by (unfold zlen; rewrite le_bytes_length; reflexivity).
  rewrite E. replace ((0 <=? loc) && (loc + Z.of_nat n <=? zlen buf)) with true by lia. eexists. reflexivity.
Qed.
Lemma update_some n buf loc f : 0 <= loc -> loc + Z.of_nat n <= zlen buf -> exists b, update n buf loc f = Next b /\ zlen b = zlen buf.
Proof.
  intros L H. unfold update, fetch, slice. replace ((0 <=? loc) && (0 <=? Z.of_nat n) && (loc + Z.of_nat n <=? zlen buf)) with true by lia.
  destruct (store_some n buf loc (f (le_val (firstn (Z.to_nat (Z.of_nat n)) (skipn (Z.to_nat loc) buf)))) L H) as (b & E).
  exists b. split; [exact E|]. unfold store in E. destruct (splice _ _ _) eqn:S; [|discriminate]. injection E as <-. exact (splice_length _ _ _ _ S).
Qed.
Lemma fits_int_in v : - 2 ^ 31 <= sext 64 v < 2 ^ 31 -> fits_int (u64 v) = true.
Proof.
  intros H. unfold fits_int, s64, s32. apply Z.eqb_eq. rewrite sext64_u64.
  rewrite <- (sext_small 32 (sext 64 v)) at 1 by lia. apply sext_eq_mod; [lia|]. rewrite <- (u64_mod (sext 64 v)) by lia.
  unfold u64. rewrite sext_mod by lia. reflexivity.
Qed.
Lemma la_accepts c syms prev r s buf k :
  nth_error syms (Z.to_nat (r_sym r)) = Some s -> r_offset r < t_size c ->
  In (r_type r, k) [(64, 17); (65, 22); (66, 27); (103, 21)] ->
  - 2 ^ k <= dist (y_value s + r_addend r) (place c r) < 2 ^ k -> dist (y_value s + r_addend r) (place c r) mod 4 = 0 ->
  0 <= locn c r -> locn c r + 4 <= zlen buf ->
  exists b, la_reloc c syms prev r buf = Next b.
Proof.
  intros Hs Ho Hin Hv Hm L1 L2. unfold la_reloc. destruct (Z.leb_spec (t_size c) (r_offset r)); [lia|]. rewrite Hs.
  cbv zeta.
  assert (E : la_adjust c r s = 0).
  { destruct Hin as [I|[I|[I|[I|[]]]]]; injection I as T _; unfold la_adjust; rewrite <- T; reflexivity. }
  rewrite E. change (0 =? u64 (-1)) with false. change (0 =? 1) with false. cbn iota.
  assert (R : la_range k (s64 (u64 (u64 (y_value s + r_addend r) - u64 (t_addr c + r_offset r)))) = true).
  { rewrite off_eq. unfold la_range. change 3 with (Z.ones 2). rewrite Z.land_ones by lia. change (2 ^ 2) with 4. unfold place in *. lia. }
  unfold la_apply. fold (locn c r).
  destruct Hin as [I|[I|[I|[I|[]]]]]; injection I as T K; rewrite <- T; rewrite <- K in R;
    unfold R_LARCH_NONE, R_LARCH_32, R_LARCH_64, R_LARCH_ADD32, R_LARCH_ADD64, R_LARCH_SUB32,
    R_LARCH_SUB64, R_LARCH_B16, R_LARCH_B21, R_LARCH_B26, R_LARCH_ABS_HI20, R_LARCH_ABS_LO12,
    R_LARCH_PCALA_HI20, R_LARCH_PCALA_LO12, R_LARCH_PCREL20_S2; cbn [Z.eqb Pos.eqb orb];
    cbv zeta; rewrite R; match goal with |- exists b, update ?n ?bf ?l ?f = _ => destruct (update_some n bf l f L1 L2) as (b & B & _); exists b; exact B end.
Qed.
Lemma rv_accepts e c prev r st s :
  nth_error (v_syms st) (Z.to_nat (r_sym r)) = Some s -> r_offset r < t_size c ->
  rv_adjusts s (r_type r) = false ->
  In (r_type r) [1; 56; 57; 18; 19; 23; 26] ->
  - 2 ^ 31 <= rv_value (r_type r) (y_value s + r_addend r) (place c r) < 2 ^ 31 ->
  0 <= locn c r -> locn c r + 8 <= zlen (v_buf st) ->
  exists st', rv_reloc e c prev r st = Next st'.
Proof.
  intros Hs Ho Ha Hin Hv L1 L2. unfold rv_reloc. destruct (Z.leb_spec (t_size c) (r_offset r)); [lia|].
  rewrite Hs, (rv_adjust_none _ _ _ _ Ha), Hs.
  assert (A : In (r_type r) [1; 56; 26] -> fits_int (u64 (y_value s + r_addend r)) = true).
  { intros I. apply fits_int_in. unfold rv_value in Hv. destruct I as [I|[I|[I|[]]]]; rewrite <- I in Hv; exact Hv. }
  assert (B : In (r_type r) [57; 18; 19; 23] ->
    fits_int (u64 (u64 (y_value s + r_addend r) - u64 (t_addr c + r_offset r))) = true).
  { intros I. apply fits_int_in. rewrite <- sext64_u64, sext64_dist. unfold rv_value in Hv.
    destruct I as [I|[I|[I|[I|[]]]]]; rewrite <- I in Hv; exact Hv. }
  cbv zeta. fold (locn c r).
  assert (M : exists b, rv_apply c prev r s (v_syms st) (v_buf st) (locn c r) (u64 (t_addr c + r_offset r)) (u64 (y_value s + r_addend r)) = Next b).
  { assert (U : forall bf l f, 0 <= l -> l + 4 <= zlen bf -> exists b, update 4 bf l f = Next b /\ zlen b = zlen bf) by (intros; now apply update_some).
    assert (W : forall v, exists b, store 4 (v_buf st) (locn c r) v = Next b) by (intros; apply store_some; lia).
    unfold rv_apply. destruct Hin as [I|[I|[I|[I|[I|[I|[I|[]]]]]]]]; rewrite <- I in *;
    cbn [In] in A, B; unfold rv_ignored, R_RISCV_32_PCREL, R_RISCV_32, R_RISCV_SET32, R_RISCV_64, R_RISCV_JAL, R_RISCV_CALL,
    R_RISCV_CALL_PLT, R_RISCV_PCREL_HI20, R_RISCV_HI20; cbn [existsb Z.eqb Pos.eqb orb]; cbv zeta;
    first [rewrite A by tauto | rewrite B by tauto]; try apply W;
    match goal with |- context [update 4 (v_buf st) (locn c r) ?f] => destruct (U (v_buf st) (locn c r) f L1 ltac:(lia)) as (b & E & Lb); rewrite E end;
      try (eexists; reflexivity).
    1,2: destruct (U b (locn c r + 4) (fun w => set_itype_imm w (u64 (u64 (y_value s + r_addend r) - u64 (t_addr c + r_offset r)))) ltac:(lia) ltac:(lia)) as (b2 & E2 & _);
      exists b2; exact E2. }
  destruct M as (b & ->). eexists. reflexivity.
Qed.
(** The test of JAL: what is 2 MiB or more away forwards, or more than 1 MiB backwards, is refused. *)
Lemma shiftr_zero v k : 0 <= k -> 0 <= v -> (Z.shiftr v k =? 0) = (v <? 2 ^ k).
Proof.
  intros K V. rewrite Z.shiftr_div_pow2 by exact K. assert (P : 0 < 2 ^ k) by (apply Z.pow_pos_nonneg; lia).
  destruct (Z.ltb_spec v (2 ^ k)).
  - rewrite Z.div_small by lia. reflexivity.
  - apply Z.eqb_neq. assert (1 <= v / 2 ^ k) by (apply Z.div_le_lower_bound; lia). lia.
Qed.
Lemma jal_range v : 0 <= v < 2 ^ 64 -> rv_range 21 0xfffffffffff00000 v = (- 2 ^ 20 <=? sext 64 v) && (sext 64 v <? 2 ^ 21).
Proof.
  intros V. unfold rv_range. rewrite shiftr_zero by lia.
  assert (L : (Z.land v 0xfffffffffff00000 =? 0xfffffffffff00000) = (2 ^ 64 - 2 ^ 20 <=? v)).
  { assert (E : Z.land v 0xfffffffffff00000 = v / 2 ^ 20 * 2 ^ 20).
    { change 0xfffffffffff00000 with (Z.shiftl (Z.ones 44) 20). rewrite <- Z.shiftl_mul_pow2, <- Z.shiftr_div_pow2 by lia.
      apply Z.bits_inj'. intros n Hn. rewrite Z.land_spec, !Z.shiftl_spec by lia.
      destruct (Z.ltb_spec n 20); [rewrite (Z.testbit_neg_r (Z.ones 44)), (Z.testbit_neg_r (Z.shiftr v 20)) by lia; now rewrite andb_false_r|].
      rewrite Z.shiftr_spec by lia. replace (n - 20 + 20) with n by lia.
      destruct (Z.ltb_spec n 64); [rewrite Z.ones_spec_low by lia; now rewrite andb_true_r|].
      rewrite Z.ones_spec_high by lia. rewrite andb_false_r. symmetry. destruct (Z.eq_dec v 0) as [->|N0]; [apply Z.bits_0|]. apply Z.bits_above_log2; [lia|]. apply Z.log2_lt_pow2; [lia|]. apply Z.lt_le_trans with (2 ^ 64); [lia|]. apply Z.pow_le_mono_r; lia. }
    rewrite E. pose proof (Z.div_mod v (2 ^ 20) ltac:(lia)). pose proof (Z.mod_pos_bound v (2 ^ 20) ltac:(lia)).
    change 0xfffffffffff00000 with ((2 ^ 44 - 1) * 2 ^ 20). change (2 ^ 64) with (2 ^ 44 * 2 ^ 20) in *.
    destruct (Z.leb_spec (2 ^ 44 * 2 ^ 20 - 2 ^ 20) v); [apply Z.eqb_eq|apply Z.eqb_neq]; nia. }
  rewrite L. unfold sext. cbv zeta. rewrite Z.mod_small by exact V. change (2 ^ (64 - 1)) with (2 ^ 63). destruct (Z.ltb_spec v (2 ^ 63)); lia.
Qed.
Lemma rv_jal_reach e c prev r st s :
  nth_error (v_syms st) (Z.to_nat (r_sym r)) = Some s -> r_offset r < t_size c -> r_type r = 17 ->
  let d := dist (y_value s + r_addend r) (place c r) in
  (~ (- 2 ^ 20 <= d < 2 ^ 21) -> rv_reloc e c prev r st = Fail) /\
  (- 2 ^ 20 <= d < 2 ^ 20 -> 0 <= locn c r -> locn c r + 4 <= zlen (v_buf st) -> exists st', rv_reloc e c prev r st = Next st').
Proof.
  intros Hs Ho T. cbv zeta. assert (Ha : rv_adjusts s (r_type r) = false) by (rewrite T; unfold rv_adjusts; destruct (undefinedb s), (y_type s =? 1); reflexivity).
  unfold rv_reloc. destruct (Z.leb_spec (t_size c) (r_offset r)); [lia|]. rewrite Hs, (rv_adjust_none _ _ _ _ Ha), Hs. cbv zeta. fold (locn c r).
  set (v := u64 (u64 (y_value s + r_addend r) - u64 (t_addr c + r_offset r))).
  assert (V : 0 <= v < 2 ^ 64) by (apply Z.mod_pos_bound; lia).
  assert (D : sext 64 v = dist (y_value s + r_addend r) (place c r)) by (exact (sext64_dist _ _)).
  assert (A : rv_apply c prev r s (v_syms st) (v_buf st) (locn c r) (u64 (t_addr c + r_offset r)) (u64 (y_value s + r_addend r)) =
    if rv_range 21 0xfffffffffff00000 v then update 4 (v_buf st) (locn c r) (fun w => set_jtype_imm w v) else Fail).
  { unfold rv_apply. rewrite T. reflexivity. }
  rewrite A, (jal_range v V), D. split.
  - intros N. replace ((- 2 ^ 20 <=? _) && _) with false by lia. reflexivity.
  - intros R L1 L2. replace ((- 2 ^ 20 <=? _) && _) with true by lia.
    destruct (update_some 4 (v_buf st) (locn c r) (fun w => set_jtype_imm w v) L1 L2) as (b & E & _). rewrite E. eexists. reflexivity.
Qed.

(** A field that holds the low bits of a value that fits represents it. *)
Lemma fits_signed_exact v n : 0 < n <= 64 -> fits_signed n v -> sext n (v mod 2 ^ n) = sext 64 v.
Proof.
  intros Hn Hf. rewrite <- (sext_small n (sext 64 v)) by (try lia; exact Hf).
  apply sext_eq_mod; [lia|]. rewrite Z.mod_mod by (apply Z.pow_nonzero; lia).
  rewrite <- (u64_mod (sext 64 v)) by lia. unfold u64. rewrite sext_mod by lia.
  symmetry. apply mod_mod_pow. lia.
Qed.
Lemma fits_unsigned_exact v n : 0 < n <= 64 -> fits_unsigned n v -> v mod 2 ^ n = v mod 2 ^ 64.
Proof.
  intros Hn Hf. rewrite <- (mod_mod_pow v n 64) by lia. apply Z.mod_small.
  split; [apply Z.mod_pos_bound; lia|exact Hf].
Qed.

(** ** Sections *)
Lemma relocate_rela {A} (apply : shdr -> A -> res A) sh0 ss a :
  h_type sh0 <> SHT_REL ->
  relocate_loop apply sh0 ss a =
  fold_left (fun o s => match o with ROk a => apply s a | o => o end)
    (filter (fun s => h_type s =? 4) ss) (ROk a).
Proof.
  intros H0. revert a. induction ss as [|s ss IH]; intros a; cbn [relocate_loop filter]; [reflexivity|].
  unfold SHT_RELA. destruct (h_type s =? 4).
  - cbn [fold_left]. destruct (apply s a) as [a'| |]; [apply IH| |].
    + clear. generalize (filter (fun s => h_type s =? 4) ss). intros l.
      induction l as [|x l IH]; [reflexivity|exact IH].
    + clear. generalize (filter (fun s => h_type s =? 4) ss). intros l.
      induction l as [|x l IH]; [reflexivity|exact IH].
  - destruct (Z.eqb_spec (h_type sh0) SHT_REL); [contradiction|]. apply IH.
Qed.
