(** Bit-level facts about the field setters: each sets exactly its field. *)
From Coq Require Import ZArith List Bool Lia ZifyBool.
From Verif Require Import Base BaseProofs BitTac JumpSpec JumpModel RelocModel RelocSpec.
Import ListNotations.
Open Scope Z_scope.
Ltac Zify.zify_post_hook ::= idtac.

Lemma tb_mod x n i : 0 <= i < n -> Z.testbit (x mod 2 ^ n) i = Z.testbit x i.
Proof. intros. apply Z.mod_pow2_bits_low. lia. Qed.
Lemma tb_u32 x i : 0 <= i < 32 -> Z.testbit (u32 x) i = Z.testbit x i.
Proof. apply tb_mod. Qed.
Lemma tb_u64 x i : 0 <= i < 64 -> Z.testbit (u64 x) i = Z.testbit x i.
Proof. apply tb_mod. Qed.
Lemma tb_u16 x i : 0 <= i < 16 -> Z.testbit (u16 x) i = Z.testbit x i.
Proof. apply tb_mod. Qed.
Lemma tb_bits w hi lo i : 0 <= lo -> 0 <= i <= hi - lo ->
  Z.testbit (bits w hi lo) i = Z.testbit w (i + lo).
Proof.
  intros. unfold bits. rewrite tb_mod by lia.
  rewrite <- Z.shiftr_div_pow2 by lia. apply Z.shiftr_spec. lia.
Qed.
Lemma tb_bits_high w hi lo i : lo <= hi -> hi - lo < i ->
  Z.testbit (bits w hi lo) i = false.
Proof. intros. unfold bits. apply Z.mod_pow2_bits_high. lia. Qed.
Lemma bits_range' w hi lo n : n = hi - lo + 1 -> 0 <= n -> 0 <= bits w hi lo < 2 ^ n.
Proof. intros -> H. unfold bits. apply Z.mod_pos_bound. apply Z.pow_pos_nonneg; lia. Qed.
Lemma bits_range w hi lo : lo <= hi + 1 -> 0 <= bits w hi lo < 2 ^ (hi - lo + 1).
Proof. intros. unfold bits. apply Z.mod_pos_bound. apply Z.pow_pos_nonneg; lia. Qed.

(** Every [testbit] of a literal is computed. *)
Ltac tb_ground :=
  repeat match goal with
  | |- context [Z.testbit (Zpos ?p) ?i] =>
      let b := eval vm_compute in (Z.testbit (Zpos p) i) in
      change (Z.testbit (Zpos p) i) with b
  | |- context [Z.testbit (Zneg ?p) ?i] =>
      let b := eval vm_compute in (Z.testbit (Zneg p) i) in
      change (Z.testbit (Zneg p) i) with b
  | |- context [Z.testbit Z0 ?i] => rewrite (Z.testbit_0_l i)
  end.
(** Closed indices are computed; negative ones give [false]. *)
Ltac tb_index :=
  repeat match goal with
  | |- context [Z.testbit ?c ?i] =>
      lazymatch i with
      | Z0 => fail | Zpos _ => fail | Zneg _ => fail
      | _ => idtac
      end;
      let j := eval vm_compute in i in
      change (Z.testbit c i) with (Z.testbit c j)
  end;
  repeat match goal with
  | |- context [Z.testbit ?c (Zneg ?p)] => rewrite (Z.testbit_neg_r c (Zneg p)) by reflexivity
  end.
Ltac tb_push :=
  repeat (first
    [ rewrite Z.land_spec | rewrite Z.lor_spec | rewrite Z.lnot_spec by lia
    | rewrite Z.shiftl_spec by lia | rewrite Z.shiftr_spec by lia
    | rewrite tb_u32 by lia | rewrite tb_u64 by lia | rewrite tb_u16 by lia
    | rewrite tb_bits by lia | rewrite tb_bits_high by lia ]; tb_index; tb_ground).
Ltac tb_done :=
  repeat match goal with
  | |- context [Z.testbit ?c ?i] => destruct (Z.testbit c i)
  end; reflexivity.

Ltac cases_lt i n :=
  match goal with
  | H : 0 <= i < n |- _ =>
      let m := eval vm_compute in (Z.to_nat n) in
      let rec go k :=
        lazymatch k with
        | O => exfalso; lia
        | S ?k' => let v := eval vm_compute in (n - Z.of_nat k) in
                   destruct (Z.eq_dec i v) as [->|?]; [clear H|go k']
        end in
      go m
  end.

(** [a = b] for two [n]-bit numbers, bit by bit. *)
Ltac bitblast n :=
  apply (bits_eq n); [lia| | |
    let i := fresh "i" in let H := fresh "H" in
    intros i H; cases_lt i n; tb_index; tb_ground; tb_push; tb_done].

Lemma lor_range n a b : 0 <= n -> 0 <= a < 2 ^ n -> 0 <= b < 2 ^ n -> 0 <= Z.lor a b < 2 ^ n.
Proof.
  intros Hn Ha Hb. split; [apply Z.lor_nonneg; lia|].
  destruct (Z.eq_dec (Z.lor a b) 0) as [->|N]; [apply Z.pow_pos_nonneg; lia|].
  assert (0 < Z.lor a b) by (pose proof (proj2 (Z.lor_nonneg a b)); lia).
  apply Z.log2_lt_pow2; [lia|]. rewrite Z.log2_lor by lia.
  destruct (Z.eq_dec n 0) as [->|]; [change (2 ^ 0) with 1 in *; assert (a = 0) by lia;
    assert (b = 0) by lia; subst; cbn in N; congruence|].
  assert (forall x, 0 <= x < 2 ^ n -> Z.log2 x < n).
  { intros x Hx. destruct (Z.eq_dec x 0) as [->|]; [cbn; lia|]. apply Z.log2_lt_pow2; lia. }
  apply Z.max_lub_lt; auto.
Qed.
Lemma land_range_r n a b : 0 <= n -> 0 <= b < 2 ^ n -> 0 <= Z.land a b < 2 ^ n.
Proof.
  intros Hn Hb. assert (0 <= Z.land a b) by (apply Z.land_nonneg; lia). split; [lia|].
  destruct (Z.eq_dec (Z.land a b) 0) as [->|N]; [apply Z.pow_pos_nonneg; lia|].
  destruct (Z.lt_ge_cases (Z.land a b) (2 ^ n)) as [|C]; [auto|exfalso].
  apply Z.log2_le_pow2 in C; [|lia].
  pose proof (Z.bit_log2 (Z.land a b) ltac:(lia)) as B.
  rewrite Z.land_spec in B. rewrite (testbit_small_high b n) in B by lia.
  rewrite andb_false_r in B. discriminate.
Qed.
Lemma u32_rng x : 0 <= u32 x < 2 ^ 32.
Proof. apply Z.mod_pos_bound. reflexivity. Qed.
Lemma u16_rng x : 0 <= u16 x < 2 ^ 16.
Proof. apply Z.mod_pos_bound. reflexivity. Qed.

(** Ranges of the words built by the setters. *)
Ltac rng :=
  repeat first
  [ apply u32_rng | apply u16_rng
  | apply lor_range; [lia| |]
  | apply land_range_r; [lia|] ];
  try (vm_compute; split; congruence).

(** Fields of at most [n] bits. *)
Ltac field n :=
  bitblast n; (apply bits_range'; [reflexivity|lia]).

(** All facts about kept bits, bit by bit. *)
Ltac keepblast n :=
  let i := fresh "i" in let H := fresh "H" in let M := fresh "M" in
  let C := fresh "C" in let H' := fresh "H'" in
  intros i H M;
  destruct (Z.lt_ge_cases i n) as [C|C];
  [ assert (H' : 0 <= i < n) by lia; clear H C;
    revert M; cases_lt i n; intros M; try discriminate M; clear M;
    tb_index; tb_ground; tb_push; tb_done
  | rewrite !(testbit_small_high _ n) by (try lia; auto); reflexivity ].

(** AArch64 *)
Lemma set_adrp_range w v : 0 <= set_adrp w v < 2 ^ 32.
Proof. unfold set_adrp. cbv zeta. rng. Qed.
Lemma set_adrp_hi w v : bits (set_adrp w v) 23 5 = bits v 20 2.
Proof. unfold set_adrp. cbv zeta. field 19. Qed.
Lemma set_adrp_lo w v : bits (set_adrp w v) 30 29 = bits v 1 0.
Proof. unfold set_adrp. cbv zeta. field 2. Qed.
Lemma set_adrp_keeps w v : 0 <= w < 2 ^ 32 -> keeps adrp_mask w (set_adrp w v).
Proof.
  intros Hw. pose proof (set_adrp_range w v) as Hr. revert Hr. unfold set_adrp. cbv zeta. intros Hr.
  unfold keeps. keepblast 32.
Qed.
Lemma set_imm12_range w v : 0 <= set_imm12 w v < 2 ^ 32.
Proof. unfold set_imm12. cbv zeta. rng. Qed.
Lemma set_imm12_f w v : bits (set_imm12 w v) 21 10 = bits v 11 0.
Proof. unfold set_imm12. cbv zeta. field 12. Qed.
Lemma set_imm12_keeps w v : 0 <= w < 2 ^ 32 -> keeps imm12_mask w (set_imm12 w v).
Proof.
  intros Hw. pose proof (set_imm12_range w v) as Hr. revert Hr. unfold set_imm12. cbv zeta. intros Hr.
  unfold keeps. keepblast 32.
Qed.
Lemma set_imm12_s3_range w v : 0 <= set_imm12_s3 w v < 2 ^ 32.
Proof. unfold set_imm12_s3. cbv zeta. rng. Qed.
Lemma set_imm12_s3_keeps w v : 0 <= w < 2 ^ 32 -> keeps imm12_mask w (set_imm12_s3 w v).
Proof.
  intros Hw. pose proof (set_imm12_s3_range w v) as Hr. revert Hr. unfold set_imm12_s3. cbv zeta. intros Hr.
  unfold keeps. keepblast 32.
Qed.
Lemma set_imm12_s3_f w v : bits (set_imm12_s3 w v) 21 10 = bits v 11 3.
Proof.
  unfold set_imm12_s3. cbv zeta. bitblast 12; [apply bits_range'; [reflexivity|lia]|].
  pose proof (bits_range' v 11 3 9 eq_refl ltac:(lia)). change (2 ^ 9) with 512 in *.
  change (2 ^ 12) with 4096. lia.
Qed.
Lemma set_call26_range w v : 0 <= set_call26 w v < 2 ^ 32.
Proof. unfold set_call26. cbv zeta. rng. Qed.
Lemma set_call26_f w v : bits (set_call26 w v) 25 0 = bits v 27 2.
Proof. unfold set_call26. cbv zeta. field 26. Qed.
Lemma set_call26_keeps w v : 0 <= w < 2 ^ 32 -> keeps b26_mask w (set_call26 w v).
Proof.
  intros Hw. pose proof (set_call26_range w v) as Hr. revert Hr. unfold set_call26. cbv zeta. intros Hr.
  unfold keeps. keepblast 32.
Qed.
Lemma set_jump26_range w v : 0 <= set_jump26 w v < 2 ^ 32.
Proof. unfold set_jump26. change (s32 (Z.shiftl 63 26)) with (-67108864). cbv zeta. rng. Qed.
Lemma set_jump26_f w v : bits (set_jump26 w v) 25 0 = bits v 25 0.
Proof. unfold set_jump26. change (s32 (Z.shiftl 63 26)) with (-67108864). cbv zeta. field 26. Qed.
Lemma set_jump26_keeps w v : 0 <= w < 2 ^ 32 -> keeps b26_mask w (set_jump26 w v).
Proof.
  intros Hw. pose proof (set_jump26_range w v) as Hr. revert Hr. unfold set_jump26. change (s32 (Z.shiftl 63 26)) with (-67108864). cbv zeta. intros Hr.
  unfold keeps. keepblast 32.
Qed.
Lemma set_got_add_range w v : 0 <= set_got_add w v < 2 ^ 32.
Proof. unfold set_got_add. cbv zeta. apply set_imm12_range. Qed.
Lemma set_got_add_f w v : bits (set_got_add w v) 21 10 = bits v 11 0.
Proof. unfold set_got_add. cbv zeta. apply set_imm12_f. Qed.
Lemma set_got_add_op w v : bits (set_got_add w v) 31 22 = 0x244.
Proof.
  unfold set_got_add, set_imm12. cbv zeta. bitblast 10;
    [apply bits_range'; [reflexivity|lia]|change (2 ^ 10) with 1024; lia].
Qed.
Lemma set_got_add_keeps w v : 0 <= w < 2 ^ 32 -> keeps 0xFFFFFC00 w (set_got_add w v).
Proof.
  intros Hw. pose proof (set_got_add_range w v) as Hr. revert Hr.
  unfold set_got_add, set_imm12. cbv zeta. intros Hr.
  unfold keeps. keepblast 32.
Qed.

(** RISC-V *)
Lemma set_itype_imm_range w v : 0 <= set_itype_imm w v < 2 ^ 32.
Proof. unfold set_itype_imm. cbv zeta. rng. Qed.
Lemma set_itype_imm_f w v : bits (set_itype_imm w v) 31 20 = bits v 11 0.
Proof. unfold set_itype_imm. cbv zeta. field 12. Qed.
Lemma set_itype_imm_keeps w v : 0 <= w < 2 ^ 32 -> keeps i_mask w (set_itype_imm w v).
Proof.
  intros Hw. pose proof (set_itype_imm_range w v) as Hr. revert Hr. unfold set_itype_imm. cbv zeta. intros Hr.
  unfold keeps. keepblast 32.
Qed.
Lemma set_stype_imm_range w v : 0 <= set_stype_imm w v < 2 ^ 32.
Proof. unfold set_stype_imm. cbv zeta. rng. Qed.
Lemma set_stype_imm_hi w v : bits (set_stype_imm w v) 31 25 = bits v 11 5.
Proof. unfold set_stype_imm. cbv zeta. field 7. Qed.
Lemma set_stype_imm_lo w v : bits (set_stype_imm w v) 11 7 = bits v 4 0.
Proof. unfold set_stype_imm. cbv zeta. field 5. Qed.
Lemma set_stype_imm_keeps w v : 0 <= w < 2 ^ 32 -> keeps s_mask w (set_stype_imm w v).
Proof.
  intros Hw. pose proof (set_stype_imm_range w v) as Hr. revert Hr. unfold set_stype_imm. cbv zeta. intros Hr.
  unfold keeps. keepblast 32.
Qed.
Lemma set_jtype_imm_range w v : 0 <= set_jtype_imm w v < 2 ^ 32.
Proof. unfold set_jtype_imm. cbv zeta. rng. Qed.
Lemma set_jtype_imm_20 w v : bits (set_jtype_imm w v) 31 31 = bits v 20 20.
Proof. unfold set_jtype_imm. cbv zeta. field 1. Qed.
Lemma set_jtype_imm_19 w v : bits (set_jtype_imm w v) 19 12 = bits v 19 12.
Proof. unfold set_jtype_imm. cbv zeta. field 8. Qed.
Lemma set_jtype_imm_11 w v : bits (set_jtype_imm w v) 20 20 = bits v 11 11.
Proof. unfold set_jtype_imm. cbv zeta. field 1. Qed.
Lemma set_jtype_imm_10 w v : bits (set_jtype_imm w v) 30 21 = bits v 10 1.
Proof. unfold set_jtype_imm. cbv zeta. field 10. Qed.
Lemma set_jtype_imm_keeps w v : 0 <= w < 2 ^ 32 -> keeps j_mask w (set_jtype_imm w v).
Proof.
  intros Hw. pose proof (set_jtype_imm_range w v) as Hr. revert Hr. unfold set_jtype_imm. cbv zeta. intros Hr.
  unfold keeps. keepblast 32.
Qed.
Lemma set_cjtype_imm_range w v : 0 <= set_cjtype_imm w v < 2 ^ 16.
Proof. unfold set_cjtype_imm. cbv zeta. rng. Qed.
Lemma set_cjtype_imm_11 w v : bits (set_cjtype_imm w v) 12 12 = bits v 11 11.
Proof. unfold set_cjtype_imm. cbv zeta. field 1. Qed.
Lemma set_cjtype_imm_10 w v : bits (set_cjtype_imm w v) 8 8 = bits v 10 10.
Proof. unfold set_cjtype_imm. cbv zeta. field 1. Qed.
Lemma set_cjtype_imm_9 w v : bits (set_cjtype_imm w v) 10 9 = bits v 9 8.
Proof. unfold set_cjtype_imm. cbv zeta. field 2. Qed.
Lemma set_cjtype_imm_7 w v : bits (set_cjtype_imm w v) 6 6 = bits v 7 7.
Proof. unfold set_cjtype_imm. cbv zeta. field 1. Qed.
Lemma set_cjtype_imm_6 w v : bits (set_cjtype_imm w v) 7 7 = bits v 6 6.
Proof. unfold set_cjtype_imm. cbv zeta. field 1. Qed.
Lemma set_cjtype_imm_5 w v : bits (set_cjtype_imm w v) 2 2 = bits v 5 5.
Proof. unfold set_cjtype_imm. cbv zeta. field 1. Qed.
Lemma set_cjtype_imm_4 w v : bits (set_cjtype_imm w v) 11 11 = bits v 4 4.
Proof. unfold set_cjtype_imm. cbv zeta. field 1. Qed.
Lemma set_cjtype_imm_3 w v : bits (set_cjtype_imm w v) 5 3 = bits v 3 1.
Proof. unfold set_cjtype_imm. cbv zeta. field 3. Qed.
Lemma set_cjtype_imm_keeps w v : 0 <= w < 2 ^ 16 -> keeps cj_mask w (set_cjtype_imm w v).
Proof.
  intros Hw. pose proof (set_cjtype_imm_range w v) as Hr. revert Hr. unfold set_cjtype_imm. cbv zeta. intros Hr.
  unfold keeps. keepblast 16.
Qed.
Lemma set_citype_imm_range w v : 0 <= set_citype_imm w v < 2 ^ 16.
Proof. unfold set_citype_imm. cbv zeta. rng. Qed.
Lemma set_citype_imm_17 w v : bits (set_citype_imm w v) 12 12 = bits v 17 17.
Proof. unfold set_citype_imm. cbv zeta. field 1. Qed.
Lemma set_citype_imm_16 w v : bits (set_citype_imm w v) 6 2 = bits v 16 12.
Proof. unfold set_citype_imm. cbv zeta. field 5. Qed.
Lemma set_citype_imm_keeps w v : 0 <= w < 2 ^ 16 -> keeps clui_mask w (set_citype_imm w v).
Proof.
  intros Hw. pose proof (set_citype_imm_range w v) as Hr. revert Hr. unfold set_citype_imm. cbv zeta. intros Hr.
  unfold keeps. keepblast 16.
Qed.
Lemma set_utype_imm_range w v : 0 <= set_utype_imm w v < 2 ^ 32.
Proof. unfold set_utype_imm. cbv zeta. rng. Qed.
Lemma set_utype_imm_keeps w v : 0 <= w < 2 ^ 32 -> keeps u_mask w (set_utype_imm w v).
Proof.
  intros Hw. pose proof (set_utype_imm_range w v) as Hr. revert Hr. unfold set_utype_imm.
  cbv zeta. set (v' := u64 (v + _)). clearbody v'. intros Hr. unfold keeps. keepblast 32.
Qed.
Lemma set_utype_imm_bits w v v' : v' = u64 (v + u64 (Z.shiftl (Z.land v 0x800) 1)) ->
  bits (set_utype_imm w v) 31 12 = bits v' 31 12.
Proof. intros H. unfold set_utype_imm. cbv zeta. rewrite <- H. clear H. field 20. Qed.

(** LoongArch *)
Lemma set_2ri12_imm_range w v : 0 <= set_2ri12_imm w v < 2 ^ 32.
Proof. unfold set_2ri12_imm. cbv zeta. rng. Qed.
Lemma set_2ri12_imm_f w v : bits (set_2ri12_imm w v) 21 10 = bits v 11 0.
Proof. unfold set_2ri12_imm. cbv zeta. field 12. Qed.
Lemma set_2ri12_imm_keeps w v : 0 <= w < 2 ^ 32 -> keeps si12_mask w (set_2ri12_imm w v).
Proof.
  intros Hw. pose proof (set_2ri12_imm_range w v) as Hr. revert Hr. unfold set_2ri12_imm. cbv zeta. intros Hr.
  unfold keeps. keepblast 32.
Qed.
Lemma set_2ri16_imm_range w v : 0 <= set_2ri16_imm w v < 2 ^ 32.
Proof. unfold set_2ri16_imm. cbv zeta. rng. Qed.
Lemma set_2ri16_imm_f w v : bits (set_2ri16_imm w v) 25 10 = bits v 15 0.
Proof. unfold set_2ri16_imm. cbv zeta. field 16. Qed.
Lemma set_2ri16_imm_keeps w v : 0 <= w < 2 ^ 32 -> keeps b16_mask w (set_2ri16_imm w v).
Proof.
  intros Hw. pose proof (set_2ri16_imm_range w v) as Hr. revert Hr. unfold set_2ri16_imm. cbv zeta. intros Hr.
  unfold keeps. keepblast 32.
Qed.
Lemma set_1ri21_imm_range w v : 0 <= set_1ri21_imm w v < 2 ^ 32.
Proof. unfold set_1ri21_imm. cbv zeta. rng. Qed.
Lemma set_1ri21_imm_lo w v : bits (set_1ri21_imm w v) 25 10 = bits v 17 2.
Proof. unfold set_1ri21_imm. cbv zeta. field 16. Qed.
Lemma set_1ri21_imm_hi w v : bits (set_1ri21_imm w v) 4 0 = bits v 22 18.
Proof. unfold set_1ri21_imm. cbv zeta. field 5. Qed.
Lemma set_1ri21_imm_keeps w v : 0 <= w < 2 ^ 32 -> keeps b21_mask w (set_1ri21_imm w v).
Proof.
  intros Hw. pose proof (set_1ri21_imm_range w v) as Hr. revert Hr. unfold set_1ri21_imm. cbv zeta. intros Hr.
  unfold keeps. keepblast 32.
Qed.
Lemma set_i26_imm_range w v : 0 <= set_i26_imm w v < 2 ^ 32.
Proof. unfold set_i26_imm. cbv zeta. rng. Qed.
Lemma set_i26_imm_lo w v : bits (set_i26_imm w v) 25 10 = bits v 17 2.
Proof. unfold set_i26_imm. cbv zeta. field 16. Qed.
Lemma set_i26_imm_hi w v : bits (set_i26_imm w v) 9 0 = bits v 27 18.
Proof. unfold set_i26_imm. cbv zeta. field 10. Qed.
Lemma set_i26_imm_keeps w v : 0 <= w < 2 ^ 32 -> keeps b26_mask w (set_i26_imm w v).
Proof.
  intros Hw. pose proof (set_i26_imm_range w v) as Hr. revert Hr. unfold set_i26_imm. cbv zeta. intros Hr.
  unfold keeps. keepblast 32.
Qed.
Lemma set_pcrel_imm_range w v : 0 <= set_pcrel_imm w v < 2 ^ 32.
Proof. unfold set_pcrel_imm. cbv zeta. rng. Qed.
Lemma set_pcrel_imm_f w v : bits (set_pcrel_imm w v) 24 5 = bits v 21 2.
Proof. unfold set_pcrel_imm. cbv zeta. field 20. Qed.
Lemma set_pcrel_imm_keeps w v : 0 <= w < 2 ^ 32 -> keeps si20_mask w (set_pcrel_imm w v).
Proof.
  intros Hw. pose proof (set_pcrel_imm_range w v) as Hr. revert Hr. unfold set_pcrel_imm. cbv zeta. intros Hr.
  unfold keeps. keepblast 32.
Qed.

Ltac Zify.zify_post_hook ::= Z.div_mod_to_equations.
Lemma set_utype_imm_f w v :
  bits (set_utype_imm w v) 31 12 = ((v + 2048) / 4096) mod 2 ^ 20.
Proof.
  rewrite (set_utype_imm_bits w v _ eq_refl).
  change (Z.land v 0x800) with (Z.land v (Z.shiftl (Z.ones 1) 11)). rewrite land_field by lia.
  rewrite Z.shiftl_mul_pow2 by lia.
  unfold bits, u64. change (31 - 12 + 1) with 20.
  change (2 ^ 1) with 2. change (2 ^ 64) with 18446744073709551616.
  change (2 ^ 20) with 1048576. change (2 ^ 12) with 4096. change (2 ^ 11) with 2048.
  set (b := (v / 2048) mod 2). assert (Hb : 0 <= b < 2) by (unfold b; lia).
  assert (E : (v + 2048) / 4096 = v / 4096 + b) by (unfold b; lia).
  rewrite E. clearbody b. clear E. lia.
Qed.
