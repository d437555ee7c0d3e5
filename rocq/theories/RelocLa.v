(** Relocations: LoongArch. *)
From Coq Require Import ZArith List Bool Lia ZifyBool ZifyNat.
From Verif Require Import Base BaseProofs BitTac JumpSpec JumpModel RelocModel RelocSpec RelocBits RelocProofs RelocA64 RelocRv.
Import ListNotations.
Open Scope Z_scope.
Ltac Zify.zify_post_hook ::= Z.div_mod_to_equations.

Lemma si12_right w v : la_si12 (set_2ri12_imm w v) = sext 12 v.
Proof.
  unfold la_si12. rewrite set_2ri12_imm_f. apply sext_eq_mod; [lia|]. unbits. lia.
Qed.

Lemma la_range_inv k off : la_range k off = true ->
  - 2 ^ k <= off < 2 ^ k /\ off mod 4 = 0.
Proof.
  unfold la_range. rewrite !andb_true_iff. intros [[A B] C].
  split; [lia|]. change 0x3 with (2 ^ 2 - 1) in C. rewrite (land_low off 2) in C by lia.
  change (2 ^ 2) with 4 in C. lia.
Qed.

Lemma off_eq X P : s64 (u64 (u64 X - u64 P)) = dist X P.
Proof.
  unfold s64, dist. apply sext_eq_mod; [lia|].
  rewrite u64_mod by lia. unfold u64. rewrite <- Zminus_mod. reflexivity.
Qed.
Lemma dist_target X P : u64 (P + dist X P) = u64 X.
Proof.
  unfold u64, dist. rewrite Z.add_mod, sext64_mod, <- Z.add_mod by lia. f_equal. lia.
Qed.

Lemma b21_right w d P : 0 <= w < 2 ^ 32 -> - 2 ^ 22 <= d < 2 ^ 22 -> d mod 4 = 0 ->
  la_b21_target P (set_1ri21_imm w d) = u64 (P + d).
Proof.
  intros Hw Hd H4. unfold la_b21_target. rewrite set_1ri21_imm_lo, set_1ri21_imm_hi.
  f_equal. f_equal.
  assert (E : sext 21 (bits d 22 18 * 2 ^ 16 + bits d 17 2) = d / 4).
  { rewrite <- (sext_small 21 (d / 4)).
    - apply sext_eq_mod; [lia|]. unbits. lia.
    - lia.
    - change (21 - 1) with 20. clear - Hd H4. pw. lia. }
  rewrite E. clear - H4. lia.
Qed.
Lemma b26_right_la w d P : 0 <= w < 2 ^ 32 -> - 2 ^ 27 <= d < 2 ^ 27 -> d mod 4 = 0 ->
  la_b26_target P (set_i26_imm w d) = u64 (P + d).
Proof.
  intros Hw Hd H4. unfold la_b26_target. rewrite set_i26_imm_lo, set_i26_imm_hi.
  f_equal. f_equal.
  assert (E : sext 26 (bits d 27 18 * 2 ^ 16 + bits d 17 2) = d / 4).
  { rewrite <- (sext_small 26 (d / 4)).
    - apply sext_eq_mod; [lia|]. unbits. lia.
    - lia.
    - change (26 - 1) with 25. clear - Hd H4. pw. lia. }
  rewrite E. clear - H4. lia.
Qed.
Lemma pcaddi_right w d P : 0 <= w < 2 ^ 32 -> - 2 ^ 21 <= d < 2 ^ 21 -> d mod 4 = 0 ->
  la_pcaddi P (set_pcrel_imm w (u32 d)) = u64 (P + d).
Proof.
  intros Hw Hd H4. unfold la_pcaddi, la_si20. rewrite set_pcrel_imm_f.
  f_equal. f_equal.
  assert (E : sext 20 (bits (u32 d) 21 2) = d / 4).
  { rewrite <- (sext_small 20 (d / 4)).
    - apply sext_eq_mod; [lia|]. unfold u32. unbits. lia.
    - lia.
    - change (20 - 1) with 19. clear - Hd H4. pw. lia. }
  rewrite E. clear - H4. lia.
Qed.

Lemma s32_small d : - 2 ^ 31 <= d < 2 ^ 31 -> s32 d = d.
Proof. intros. unfold s32. apply sext_small; [lia|exact H]. Qed.

Lemma update8_has buf loc f b (Q : Z -> Z -> Prop) :
  (forall w, 0 <= w < 2 ^ 64 -> 0 <= f w < 2 ^ 64 /\ Q w (f w)) -> bytes_ok buf ->
  update 8 buf loc f = Next b ->
  bytes_ok b /\ only_at buf b loc 8 /\
  exists w w', has buf loc 8 w /\ has b loc 8 w' /\ Q w w'.
Proof.
  intros Hf Hb H. destruct (update_inv _ _ _ _ _ H) as (w & H1 & H2 & H3 & H4).
  change (Z.of_nat 8) with 8 in *. pose proof (has_range _ _ _ _ Hb H1) as Hw.
  change (8 * 8) with 64 in *. destruct (Hf w Hw) as [R HQ].
  rewrite Z.mod_small in H3 by auto.
  split; [auto|]. split; [auto|]. exists w, (f w). auto.
Qed.
Lemma store_has n k buf loc v b : Z.of_nat n = k -> bytes_ok buf -> store n buf loc v = Next b ->
  bytes_ok b /\ only_at buf b loc k /\
  exists w w', has buf loc k w /\ has b loc k w' /\ w' = v mod 2 ^ (8 * k).
Proof.
  intros <- Hb H. apply store_inv in H. destruct H as (O & Hh & B).
  destruct (has_exists _ _ _ _ _ _ Hh O) as (w & Hw). split; [auto|]. split; [auto|]. eauto.
Qed.

Lemma u64_div X k n : 0 <= k -> 0 <= n -> k + n <= 64 -> u64 X / 2 ^ k mod 2 ^ n = X / 2 ^ k mod 2 ^ n.
Proof.
  intros Hk Hn H. apply Z.bits_inj'. intros i Hi. destruct (Z.lt_ge_cases i n) as [L|L].
  - rewrite !Z.mod_pow2_bits_low by lia. rewrite !Z.div_pow2_bits by lia. apply tb_u64. lia.
  - rewrite !Z.mod_pow2_bits_high by lia. reflexivity.
Qed.
Lemma u32_div4 x : u32 x / 4 mod 2 ^ 20 = x / 4 mod 2 ^ 20.
Proof.
  change 4 with (2 ^ 2). apply Z.bits_inj'. intros i Hi. destruct (Z.lt_ge_cases i 20) as [L|L].
  - rewrite !Z.mod_pow2_bits_low by lia. rewrite !Z.div_pow2_bits by lia. apply tb_u32. lia.
  - rewrite !Z.mod_pow2_bits_high by lia. reflexivity.
Qed.
Lemma page_land x : 0 <= x < 2 ^ 64 -> Z.land x (u64 (Z.lnot 0xFFF)) = 4096 * (x / 4096).
Proof. intros H. change 0xFFF with (2 ^ 12 - 1). rewrite lnot_mask by lia. rewrite land_mask by lia. pose proof (Z.div_mod x (2 ^ 12)). change (2 ^ 12) with 4096 in *. lia. Qed.
Lemma div4_mod a b : (a - b) mod 2 ^ 22 = 0 -> a / 4 mod 2 ^ 20 = b / 4 mod 2 ^ 20.
Proof. change (2 ^ 22) with 4194304. change (2 ^ 20) with 1048576. lia. Qed.
Lemma diff_pages a b : u64 (4096 * a - 4096 * b) / 4096 / 4 mod 2 ^ 20 = (a - b) / 4 mod 2 ^ 20.
Proof.
  rewrite Z.div_div by lia. change (4096 * 4) with (2 ^ 14). rewrite u64_div by lia. replace (4096 * a - 4096 * b) with (4096 * (a - b)) by lia. change (2 ^ 14) with (4096 * 4). rewrite <- Z.div_div by lia. replace (4096 * (a - b) / 4096) with (a - b) by (rewrite Z.mul_comm, Z.div_mul by lia; reflexivity). reflexivity.
Qed.
Lemma u64_pages X : (u64 X / 4096 - X / 4096) mod 2 ^ 22 = 0.
Proof. pose proof (u64_div X 12 22 ltac:(lia) ltac:(lia) ltac:(lia)) as H. change (2 ^ 12) with 4096 in H. change (2 ^ 22) with 4194304 in *. lia. Qed.
Lemma abs_pages X : u32 (Z.shiftr (u64 X) 12) / 4 mod 2 ^ 20 = X / 4096 / 4 mod 2 ^ 20.
Proof. rewrite u32_div4. rewrite Z.shiftr_div_pow2 by lia. change (2 ^ 12) with 4096. apply div4_mod. apply u64_pages. Qed.
Lemma pcala_pages X P : u32 (Z.shiftr (u64 (Z.land (u64 (u64 X + 2048)) (u64 (Z.lnot 0xFFF)) - Z.land (u64 P) (u64 (Z.lnot 0xFFF)))) 12) / 4 mod 2 ^ 20 = ((X + 2048) / 4096 - P / 4096) / 4 mod 2 ^ 20.
Proof.
  rewrite u32_div4. rewrite Z.shiftr_div_pow2 by lia. rewrite !page_land by apply u64_range. change (2 ^ 12) with 4096. rewrite diff_pages. apply div4_mod.
  replace (u64 (u64 X + 2048)) with (u64 (X + 2048)) by (unfold u64; rewrite Z.add_mod_idemp_l by lia; reflexivity).
  pose proof (u64_pages (X + 2048)) as A. pose proof (u64_pages P) as B. revert A B. change (2 ^ 22) with 4194304. generalize (u64 (X + 2048) / 4096), ((X + 2048) / 4096), (u64 P / 4096), (P / 4096). intros. lia.
Qed.
Lemma got_pages X P : u32 (Z.shiftr (u64 (Z.land (u64 X) (u64 (Z.lnot 0xFFF)) - Z.land (u64 P) (u64 (Z.lnot 0xFFF)))) 12) / 4 mod 2 ^ 20 = (X / 4096 - P / 4096) / 4 mod 2 ^ 20.
Proof.
  rewrite u32_div4. rewrite Z.shiftr_div_pow2 by lia. rewrite !page_land by apply u64_range. change (2 ^ 12) with 4096. rewrite diff_pages. apply div4_mod.
  pose proof (u64_pages X) as A. pose proof (u64_pages P) as B. revert A B. change (2 ^ 22) with 4194304. generalize (u64 X / 4096), (X / 4096), (u64 P / 4096), (P / 4096). intros. lia.
Qed.
Lemma got32_pages X : u32 (Z.shiftr (s32 (u64 X)) 12) / 4 mod 2 ^ 20 = sext 32 X / 4096 / 4 mod 2 ^ 20.
Proof.
  rewrite u32_div4. rewrite Z.shiftr_div_pow2 by lia. change (2 ^ 12) with 4096. replace (s32 (u64 X)) with (sext 32 X); [reflexivity|]. unfold s32. apply sext_eq_mod; [lia|]. symmetry. apply u64_mod. lia.
Qed.
Lemma dist_low X P : bits (u32 (dist X P)) 15 0 = (X - P) mod 2 ^ 16.
Proof.
  unfold bits. change (2 ^ 0) with 1. rewrite Z.div_1_r. change (15 - 0 + 1) with 16. unfold u32. rewrite mod_mod_pow by lia.
  transitivity ((dist X P mod 2 ^ 64) mod 2 ^ 16); [symmetry; apply mod_mod_pow; lia|]. unfold dist. rewrite sext64_mod. apply mod_mod_pow. lia.
Qed.

Lemma la_apply_inv r buf loc P X b :
  bytes_ok buf ->
  la_apply r buf loc (u64 P) (u64 X) = Next b ->
  la_known (r_type r) = true /\ bytes_ok b /\
  only_at buf b loc (la_width (r_type r)) /\
  (0 < la_width (r_type r) -> exists w w',
     has buf loc (la_width (r_type r)) w /\ has b loc (la_width (r_type r)) w' /\
     la_right (r_type r) X P w w').
Proof.
  intros Hb. unfold la_apply. generalize (r_type r). intros ty. cbv zeta.
  unfold R_LARCH_NONE, R_LARCH_32, R_LARCH_64, R_LARCH_ADD32, R_LARCH_ADD64, R_LARCH_SUB32,
    R_LARCH_SUB64, R_LARCH_B16, R_LARCH_B21, R_LARCH_B26, R_LARCH_ABS_HI20, R_LARCH_ABS_LO12,
    R_LARCH_PCALA_HI20, R_LARCH_PCALA_LO12, R_LARCH_GOT_PC_HI20, R_LARCH_GOT_PC_LO12,
    R_LARCH_GOT_HI20, R_LARCH_GOT_LO12, R_LARCH_TLS_IE_PC_HI20, R_LARCH_TLS_IE_PC_LO12,
    R_LARCH_TLS_IE_HI20, R_LARCH_TLS_IE_LO12, R_LARCH_RELAX, R_LARCH_PCREL20_S2.
  rewrite !off_eq.
  assert (M : forall n, 0 <= n <= 64 -> (u64 X) mod 2 ^ n = X mod 2 ^ n)
    by (intros; now apply u64_mod).
  destruct (Z.eqb_spec ty 1) as [Ty|N1].
  { subst ty. intros H. apply (store_has _ 4) in H; auto.
    destruct H as (B & O & w & w' & H1 & H2 & ->). rvdone O B w ((u64 X) mod 2 ^ (8 * 4)).
    split; [auto|]. split; [auto|]. apply (M 32). lia. }
  destruct (Z.eqb_spec ty 2) as [Ty|N2].
  { subst ty. intros H. apply (store_has _ 8) in H; auto.
    destruct H as (B & O & w & w' & H1 & H2 & ->). rvdone O B w ((u64 X) mod 2 ^ (8 * 8)).
    split; [auto|]. split; [auto|]. apply (M 64). lia. }
  destruct (Z.eqb_spec ty 50) as [Ty|N50].
  { subst ty. intros H.
    apply (rv_update4 _ _ _ _ (fun w w' => w' = (w + X) mod 2 ^ 32)) in H; auto.
    2:{ intros w Hw. split; [apply u32_range|]. unfold u32.
        rewrite Z.add_mod, Z.mod_mod, (M 32), <- Z.add_mod by lia. reflexivity. }
    destruct H as (B & O & w & w' & H1 & H2 & H3). rvdone O B w w'. auto. }
  destruct (Z.eqb_spec ty 51) as [Ty|N51].
  { subst ty. intros H.
    apply (update8_has _ _ _ _ (fun w w' => w' = (w + X) mod 2 ^ 64)) in H; auto.
    2:{ intros w Hw. split; [apply u64_range|]. unfold u64 at 1.
        rewrite Z.add_mod, (M 64), <- Z.add_mod by lia. reflexivity. }
    destruct H as (B & O & w & w' & H1 & H2 & H3). rvdone O B w w'. auto. }
  destruct (Z.eqb_spec ty 55) as [Ty|N55].
  { subst ty. intros H.
    apply (rv_update4 _ _ _ _ (fun w w' => w' = (w - X) mod 2 ^ 32)) in H; auto.
    2:{ intros w Hw. split; [apply u32_range|]. unfold u32.
        rewrite Zminus_mod, Z.mod_mod, (M 32), <- Zminus_mod by lia. reflexivity. }
    destruct H as (B & O & w & w' & H1 & H2 & H3). rvdone O B w w'. auto. }
  destruct (Z.eqb_spec ty 56) as [Ty|N56].
  { subst ty. intros H.
    apply (update8_has _ _ _ _ (fun w w' => w' = (w - X) mod 2 ^ 64)) in H; auto.
    2:{ intros w Hw. split; [apply u64_range|]. unfold u64 at 1.
        rewrite Zminus_mod, (M 64), <- Zminus_mod by lia. reflexivity. }
    destruct H as (B & O & w & w' & H1 & H2 & H3). rvdone O B w w'. auto. }
  assert (PC : forall imm n, imm / 4 mod 2 ^ 20 = n / 4 mod 2 ^ 20 -> update 4 buf loc (fun w => set_pcrel_imm w imm) = Next b ->
    bytes_ok b /\ only_at buf b loc 4 /\
    exists w w', has buf loc 4 w /\ has b loc 4 w' /\ keeps si20_mask w w' /\ bits w' 24 5 = n / 4 mod 2 ^ 20).
  { intros imm n Hi H. apply (rv_update4 _ _ _ _ (fun w w' => keeps si20_mask w w' /\ bits w' 24 5 = n / 4 mod 2 ^ 20)) in H; auto.
    intros w Hw. split; [apply set_pcrel_imm_range|]. split; [now apply set_pcrel_imm_keeps|]. rewrite set_pcrel_imm_f. exact Hi. }
  assert (LO : forall imm, imm mod 2 ^ 12 = X mod 2 ^ 12 ->
    update 4 buf loc (fun w => set_2ri12_imm w imm) = Next b ->
    bytes_ok b /\ only_at buf b loc 4 /\
    exists w w', has buf loc 4 w /\ has b loc 4 w' /\ keeps si12_mask w w' /\ la_si12 w' = sext 12 X).
  { intros imm Hi H. apply (rv_update4 _ _ _ _ (fun w w' => keeps si12_mask w w' /\
      la_si12 w' = sext 12 X)) in H; auto.
    intros w Hw. split; [apply set_2ri12_imm_range|]. split; [now apply set_2ri12_imm_keeps|].
    rewrite si12_right. apply sext_eq_mod; [lia|exact Hi]. }
  assert (L32 : (u32 (u64 X)) mod 2 ^ 12 = X mod 2 ^ 12).
  { unfold u32. rewrite mod_mod_pow by lia. apply M. lia. }
  assert (LFF : (Z.land (u64 X) 0xFFF) mod 2 ^ 12 = X mod 2 ^ 12).
  { change 0xFFF with (2 ^ 12 - 1).
    rewrite (land_low _ 12) by lia. rewrite Z.mod_mod by lia. apply M. lia. }
  destruct (Z.eqb_spec ty 67) as [Ty|N67].
  { subst ty. intros H. apply (PC _ (X / 4096)) in H; [|apply abs_pages]. destruct H as (B & O & w & w' & H1 & H2 & H3). rvdone O B w w'. auto. }
  destruct (Z.eqb_spec ty 71) as [Ty|N71].
  { subst ty. intros H. apply (PC _ ((X + 2048) / 4096 - P / 4096)) in H; [|apply pcala_pages]. destruct H as (B & O & w & w' & H1 & H2 & H3). rvdone O B w w'. auto. }
  destruct ((ty =? 68) || (ty =? 72)) eqn:E68.
  { intros H. apply LO in H; [|exact L32]. destruct H as (B & O & w & w' & H1 & H2 & H3).
    assert (D : ty = 68 \/ ty = 72) by (clear - E68; lia).
    destruct D; subst ty; rvdone O B w w'; auto. }
  destruct (Z.eqb_spec ty 64) as [Ty|N64].
  { subst ty. destruct (la_range _ _); [|discriminate]. intros H.
    apply (rv_update4 _ _ _ _ (fun w w' => keeps b16_mask w w' /\ bits w' 25 10 = (X - P) mod 2 ^ 16)) in H; auto.
    2:{ intros w Hw. split; [apply set_2ri16_imm_range|]. split; [now apply set_2ri16_imm_keeps|]. rewrite set_2ri16_imm_f. apply dist_low. }
    destruct H as (B & O & w & w' & H1 & H2 & H3). rvdone O B w w'. auto. }
  destruct (Z.eqb_spec ty 65) as [Ty|N65].
  { subst ty. destruct (la_range _ _) eqn:Er; [|discriminate]. apply la_range_inv in Er. intros H.
    apply (rv_update4 _ _ _ _ (fun w w' => keeps b21_mask w w' /\ la_b21_target P w' = u64 X)) in H; auto.
    2:{ intros w Hw. rewrite s32_small by (clear - Er; pw; lia).
        split; [apply set_1ri21_imm_range|]. split; [now apply set_1ri21_imm_keeps|].
        rewrite b21_right by tauto. apply dist_target. }
    destruct H as (B & O & w & w' & H1 & H2 & H3). rvdone O B w w'. auto. }
  destruct (Z.eqb_spec ty 66) as [Ty|N66].
  { subst ty. destruct (la_range _ _) eqn:Er; [|discriminate]. apply la_range_inv in Er. intros H.
    apply (rv_update4 _ _ _ _ (fun w w' => keeps b26la_mask w w' /\ la_b26_target P w' = u64 X)) in H; auto.
    2:{ intros w Hw. rewrite s32_small by (clear - Er; pw; lia).
        split; [apply set_i26_imm_range|]. split; [now apply set_i26_imm_keeps|].
        rewrite b26_right_la by tauto. apply dist_target. }
    destruct H as (B & O & w & w' & H1 & H2 & H3). rvdone O B w w'. auto. }
  destruct (Z.eqb_spec ty 103) as [Ty|N103].
  { subst ty. destruct (la_range _ _) eqn:Er; [|discriminate]. apply la_range_inv in Er. intros H.
    apply (rv_update4 _ _ _ _ (fun w w' => keeps si20_mask w w' /\ la_pcaddi P w' = u64 X)) in H; auto.
    2:{ intros w Hw.
        split; [apply set_pcrel_imm_range|]. split; [now apply set_pcrel_imm_keeps|].
        rewrite pcaddi_right by tauto. apply dist_target. }
    destruct H as (B & O & w & w' & H1 & H2 & H3). rvdone O B w w'. auto. }
  destruct ((ty =? 75) || (ty =? 87)) eqn:E75.
  { intros H. apply (PC _ (X / 4096 - P / 4096)) in H; [|apply got_pages]. destruct H as (B & O & w & w' & H1 & H2 & H3).
    assert (D : ty = 75 \/ ty = 87) by (clear - E75; lia).
    destruct D; subst ty; rvdone O B w w'; auto. }
  destruct ((ty =? 76) || (ty =? 88)) eqn:E76.
  { intros H. apply LO in H; [|exact LFF]. destruct H as (B & O & w & w' & H1 & H2 & H3).
    assert (D : ty = 76 \/ ty = 88) by (clear - E76; lia).
    destruct D; subst ty; rvdone O B w w'; auto. }
  destruct ((ty =? 79) || (ty =? 91)) eqn:E79.
  { intros H. apply (PC _ (sext 32 X / 4096)) in H; [|apply got32_pages]. destruct H as (B & O & w & w' & H1 & H2 & H3).
    assert (D : ty = 79 \/ ty = 91) by (clear - E79; lia).
    destruct D; subst ty; rvdone O B w w'; auto. }
  destruct ((ty =? 80) || (ty =? 92)) eqn:E80.
  { intros H. apply LO in H; [|exact L32]. destruct H as (B & O & w & w' & H1 & H2 & H3).
    assert (D : ty = 80 \/ ty = 92) by (clear - E80; lia).
    destruct D; subst ty; rvdone O B w w'; auto. }
  destruct ((ty =? 100) || (ty =? 0)) eqn:E100; [|discriminate].
  intros H. injection H as <-. assert (D : ty = 100 \/ ty = 0) by (clear - E100; lia).
  destruct D; subst ty; (split; [reflexivity|]; split; [auto|]; split; [apply only_at_refl|]);
    intros C; vm_compute in C; discriminate.
Qed.

(** ** One entry *)
Lemma la_reloc_inv c syms prev r s buf b :
  nth_error syms (Z.to_nat (r_sym r)) = Some s -> bytes_ok buf ->
  la_no_mark c s r ->
  la_reloc c syms prev r buf = Next b ->
  r_offset r < t_size c /\ la_known (r_type r) = true /\ bytes_ok b /\
  only_at buf b (locn c r) (la_width (r_type r)) /\
  (0 < la_width (r_type r) -> exists w w',
     has buf (locn c r) (la_width (r_type r)) w /\
     has b (locn c r) (la_width (r_type r)) w' /\
     la_right (r_type r) (y_value s + r_addend r) (place c r) w w').
Proof.
  intros Hs Hb [Hn1 Hn2]. unfold la_reloc.
  destruct (Z.leb_spec (t_size c) (r_offset r)); [discriminate|].
  rewrite Hs. cbv zeta. destruct (_ =? u64 (-1)); [discriminate|].
  destruct (Z.eqb_spec (la_adjust c r s) 1) as [E|E]; intros H1.
  - exfalso. unfold la_adjust in E. destruct (existsb _ _) eqn:E1 in E; [contradiction|].
    unfold R_LARCH_JUMP_SLOT in E. destruct (Z.eqb_spec (r_type r) 5) as [T|T].
    + assert (R : y_value s = u64 (y_value s)).
      { destruct (y_shndx s =? SHN_UNDEF); [|discriminate].
        destruct (y_value s =? 0); [discriminate|]. rewrite E. reflexivity. }
      rewrite R in H1. apply la_apply_inv in H1; [|exact Hb]. destruct H1 as (K & _).
      rewrite T in K. discriminate.
    + destruct (existsb _ _) in E; [|discriminate]. apply Hn2. rewrite Z.add_comm. exact E.
  - apply la_apply_inv in H1; [|exact Hb]. destruct H1 as (K & B & O & Q).
    split; [auto|]. split; [auto|]. split; [auto|]. split; [exact O|]. exact Q.
Qed.

Lemma la_no_stop c syms prev r buf b : la_reloc c syms prev r buf <> Stop b.
Proof.
  unfold la_reloc. destruct (_ <=? _); [discriminate|].
  destruct (nth_error _ _); [|discriminate]. cbv zeta. destruct (_ =? u64 (-1)); [discriminate|].
  generalize (if la_adjust c r s =? 1 then y_value s else u64 (y_value s + r_addend r)). intros v.
  unfold la_apply. cbv zeta.
  repeat (match goal with |- (if ?x then _ else _) <> _ => destruct x end;
    [first [apply store_stop|apply update_stop|discriminate|
            match goal with |- (if ?x then _ else _) <> _ => destruct x end;
              [apply update_stop|discriminate]]|]).
  discriminate.
Qed.

Lemma la_unknown_fails c syms prev r buf s :
  nth_error syms (Z.to_nat (r_sym r)) = Some s ->
  t_size c <= r_offset r \/ la_known (r_type r) = false ->
  la_reloc c syms prev r buf = Fail.
Proof.
  intros Es H. unfold la_reloc. destruct (Z.leb_spec (t_size c) (r_offset r)); [reflexivity|].
  destruct H as [H|H]; [lia|]. rewrite Es. cbv zeta. destruct (_ =? u64 (-1)); [reflexivity|].
  generalize (if la_adjust c r s =? 1 then y_value s else u64 (y_value s + r_addend r)). intros v.
  unfold la_apply. cbv zeta. unfold la_known in H. cbn [existsb] in H.
  unfold R_LARCH_NONE, R_LARCH_32, R_LARCH_64, R_LARCH_ADD32, R_LARCH_ADD64, R_LARCH_SUB32,
    R_LARCH_SUB64, R_LARCH_B16, R_LARCH_B21, R_LARCH_B26, R_LARCH_ABS_HI20, R_LARCH_ABS_LO12,
    R_LARCH_PCALA_HI20, R_LARCH_PCALA_LO12, R_LARCH_GOT_PC_HI20, R_LARCH_GOT_PC_LO12,
    R_LARCH_GOT_HI20, R_LARCH_GOT_LO12, R_LARCH_TLS_IE_PC_HI20, R_LARCH_TLS_IE_PC_LO12,
    R_LARCH_TLS_IE_HI20, R_LARCH_TLS_IE_LO12, R_LARCH_RELAX, R_LARCH_PCREL20_S2.
  repeat (apply orb_false_iff in H; let K := fresh in destruct H as [K H]; rewrite ?K; clear K).
  reflexivity.
Qed.

(** ** A whole section *)
Lemma la_section c syms rs buf buf' :
  apply_loop (la_reloc c syms) [] rs buf = ROk buf' -> bytes_ok buf ->
  (forall r s, In r rs -> nth_error syms (Z.to_nat (r_sym r)) = Some s -> la_no_mark c s r) ->
  disjoint_fields la_width c rs ->
  length buf' = length buf /\
  (forall i, 0 <= i ->
     (forall r, In r rs -> ~ in_range i (locn c r) (la_width (r_type r))) ->
     nth_error buf' (Z.to_nat i) = nth_error buf (Z.to_nat i)) /\
  (forall r s, In r rs -> nth_error syms (Z.to_nat (r_sym r)) = Some s ->
     0 < la_width (r_type r) -> exists w w',
     has buf (locn c r) (la_width (r_type r)) w /\
     has buf' (locn c r) (la_width (r_type r)) w' /\
     la_right (r_type r) (y_value s + r_addend r) (place c r) w w').
Proof.
  intros H Hb Hn Hd.
  destruct (loop_fields (la_reloc c syms) (locn c) (fun r => la_width (r_type r))
    (fun r o o' => forall s, nth_error syms (Z.to_nat (r_sym r)) = Some s ->
       0 < la_width (r_type r) -> exists bs bs', o = Some bs /\ o' = Some bs' /\
       la_right (r_type r) (y_value s + r_addend r) (place c r) (le_val bs) (le_val bs'))
    rs [] buf buf') as (L & K & Q & _); auto.
  - intros prev r a b Hin Ha E.
    destruct (nth_error syms (Z.to_nat (r_sym r))) as [s|] eqn:Es.
    + destruct (la_reloc_inv _ _ _ _ _ _ _ Es Ha (Hn _ _ Hin Es) E) as (_ & _ & B & O & Hg).
      split; [auto|]. split; [auto|]. intros s' Es' Hw. injection Es' as <-.
      destruct (Hg Hw) as (w & w' & (bs & H1 & <-) & (bs' & H2 & <-) & H3).
      exists bs, bs'. auto.
    + exfalso. unfold la_reloc in E. rewrite Es in E. destruct (_ <=? _); discriminate.
  - intros prev r a b _. apply la_no_stop.
  - split; [auto|]. split; [auto|]. intros r s Hin Es Hw.
    destruct (Q r Hin s Es Hw) as (bs & bs' & H1 & H2 & H3).
    exists (le_val bs), (le_val bs'). split; [exists bs; auto|]. split; [exists bs'; auto|]. exact H3.
Qed.

(** The pair of upper and lower part *)
Lemma pcala_pair X P w1 w2 : la_pages 71 X P = (X + 2048) / 4096 - P / 4096 ->
  bits w1 24 5 = la_pages 71 X P / 4 mod 2 ^ 20 -> la_si12 w2 = sext 12 X -> - 2 ^ 19 <= la_pages 71 X P < 2 ^ 19 ->
  (u64 (la_pcalau12i P w1 + la_si12 w2) = u64 X <-> la_pages 71 X P = 0 \/ la_pages 71 X P = -1).
Proof.
  intros E B L R. set (N := la_pages 71 X P) in *.
  assert (S : la_si20 w1 = N / 4).
  { unfold la_si20. rewrite B. transitivity (sext 20 (N / 4)).
    - apply sext_eq_mod; [lia|]. apply Z.mod_mod. lia.
    - apply sext_small; [lia|]. change (20 - 1) with 19. clear - R. pw. lia. }
  assert (XX : X = 4096 * (P / 4096 + N) + sext 12 X).
  { rewrite E. unfold sext. change (2 ^ (12 - 1)) with 2048. change (2 ^ 12) with 4096. destruct (X mod 4096 <? 2048) eqn:T; lia. }
  unfold la_pcalau12i, pg12. rewrite S, L.
  assert (A : u64 (u64 (4096 * (P / 4096) + 4096 * (N / 4)) + sext 12 X) = u64 (X - 4096 * (N - N / 4))).
  { unfold u64. rewrite Z.add_mod_idemp_l by lia. f_equal. rewrite XX at 2. lia. }
  rewrite A. split.
  - intros H. unfold u64 in H. assert (D : (4096 * (N - N / 4)) mod 2 ^ 64 = 0).
    { replace (4096 * (N - N / 4)) with (X - (X - 4096 * (N - N / 4))) by lia. rewrite Zminus_mod, <- H, Z.sub_diag. reflexivity. }
    clear - D R. change (2 ^ 64) with 18446744073709551616 in D. change (2 ^ 19) with 524288 in R. lia.
  - intros H. replace (N - N / 4) with 0 by (clear - H; lia). f_equal. lia.
Qed.
