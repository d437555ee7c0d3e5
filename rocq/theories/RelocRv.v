(** Relocations: RISC-V. *)
From Coq Require Import ZArith List Bool Lia ZifyBool ZifyNat.
From Verif Require Import Base BaseProofs BitTac JumpSpec JumpModel RelocModel RelocSpec RelocBits RelocProofs RelocA64 StorageProofs.
Import ListNotations.
Open Scope Z_scope.
Ltac Zify.zify_post_hook ::= Z.div_mod_to_equations.

(** ** Immediates *)
Lemma i_imm_right w v : i_imm (set_itype_imm w v) = sext 12 v.
Proof.
  unfold i_imm. rewrite set_itype_imm_f. apply sext_eq_mod; [lia|]. unbits. lia.
Qed.
Lemma s_imm_right w v : s_imm (set_stype_imm w v) = sext 12 v.
Proof.
  unfold s_imm. rewrite set_stype_imm_hi, set_stype_imm_lo.
  apply sext_eq_mod; [lia|]. unbits. lia.
Qed.
Lemma j_imm_right w v d : v mod 2 ^ 64 = d mod 2 ^ 64 -> d mod 2 = 0 ->
  - 2 ^ 20 <= d < 2 ^ 20 -> j_imm (set_jtype_imm w v) = d.
Proof.
  intros Hv He Hr. unfold j_imm.
  rewrite set_jtype_imm_20, set_jtype_imm_19, set_jtype_imm_11, set_jtype_imm_10.
  rewrite <- (sext_small 21 d) by (try lia; exact Hr).
  apply sext_eq_mod; [lia|].
  replace (bits v 20 20 * 2 ^ 20 + bits v 19 12 * 2 ^ 12 + bits v 11 11 * 2 ^ 11 + bits v 10 1 * 2)
    with (v mod 2 ^ 21 - v mod 2).
  2:{ unbits. lia. }
  assert (E : v mod 2 = 0).
  { clear - Hv He. pw. lia. }
  rewrite E, Z.sub_0_r, Z.mod_mod by lia.
  rewrite <- (u64_mod v 21), <- (u64_mod d 21) by lia. unfold u64. rewrite Hv. reflexivity.
Qed.
Lemma cj_imm_right w v : v mod 2 = 0 -> cj_imm (set_cjtype_imm w v) = sext 12 v.
Proof.
  intros He. unfold cj_imm.
  rewrite set_cjtype_imm_11, set_cjtype_imm_10, set_cjtype_imm_9, set_cjtype_imm_7,
    set_cjtype_imm_6, set_cjtype_imm_5, set_cjtype_imm_4, set_cjtype_imm_3.
  apply sext_eq_mod; [lia|]. unbits. lia.
Qed.
Lemma clui_imm_right w v : clui_imm (set_citype_imm w v) = sext 18 (4096 * (v / 4096)).
Proof.
  unfold clui_imm. rewrite set_citype_imm_17, set_citype_imm_16.
  apply sext_eq_mod; [lia|]. unbits. lia.
Qed.

(** [s64 v] as a plain number *)
Lemma u_imm_right w v d : v mod 2 ^ 64 = d mod 2 ^ 64 -> hi_lo_reach d ->
  u_imm (set_utype_imm w v) + sext 12 d = d.
Proof.
  intros Hv Hr. unfold u_imm. rewrite set_utype_imm_f.
  assert (E : ((v + 2048) / 4096) mod 2 ^ 20 = ((d + 2048) / 4096) mod 2 ^ 20).
  { clear Hr. pw. lia. }
  rewrite E.
  replace (sext 32 (((d + 2048) / 4096) mod 2 ^ 20 * 4096)) with (4096 * ((d + 2048) / 4096)).
  2:{ rewrite <- (sext_small 32 (4096 * ((d + 2048) / 4096))).
      - apply sext_eq_mod; [lia|]. clear. pw. lia.
      - lia.
      - unfold hi_lo_reach in Hr. change (32 - 1) with 31. pw. lia. }
  unfold sext. change (12 - 1) with 11. clear. pw.
  destruct (Z.ltb_spec (d mod 4096) 2048); lia.
Qed.

Lemma sext64_mod v : (sext 64 v) mod 2 ^ 64 = v mod 2 ^ 64.
Proof. apply sext_mod. lia. Qed.
Lemma dist_u64 X P : u64 (X - u64 P) mod 2 ^ 64 = dist X P mod 2 ^ 64.
Proof. unfold dist. rewrite sext64_mod. apply u64_sub_mod; [lia|reflexivity]. Qed.

Lemma fits_int_true v : fits_int v = true -> sext 32 v = sext 64 v.
Proof. unfold fits_int, s64, s32. lia. Qed.

Lemma sext12_u64 v : sext 12 (u64 v) = sext 12 v.
Proof. apply sext_eq_mod; [lia|]. apply u64_mod. lia. Qed.

(** Two adjacent words as one 64-bit field. *)
Lemma le_val_app a b : le_val (a ++ b) = le_val a + 256 ^ zlen a * le_val b.
Proof.
  induction a as [|x a IH]; cbn [le_val app].
  - change (256 ^ zlen (@nil Z)) with 1. lia.
  - rewrite IH, zlen_cons, Z.pow_add_r by (pose proof (zlen_nonneg a); lia).
    change (256 ^ 1) with 256. lia.
Qed.
Lemma slice_app buf off n m x y : slice buf off n = Some x -> slice buf (off + n) m = Some y ->
  slice buf off (n + m) = Some (x ++ y).
Proof.
  unfold slice. intros H1 H2.
  destruct ((0 <=? off) && (0 <=? n) && (off + n <=? zlen buf)) eqn:E1; [|discriminate].
  destruct ((0 <=? off + n) && (0 <=? m) && (off + n + m <=? zlen buf)) eqn:E2; [|discriminate].
  apply some_inj in H1, H2. subst x y.
  replace ((0 <=? off) && (0 <=? n + m) && (off + (n + m) <=? zlen buf)) with true by lia.
  f_equal. apply nth_error_ext_eq. intros i.
  destruct (Nat.lt_ge_cases i (Z.to_nat n)) as [C|C].
  - rewrite nth_error_app1 by (rewrite firstn_length, skipn_length; unfold zlen in *; lia).
    rewrite !nth_error_firstn_lt by lia. reflexivity.
  - assert (L : length (firstn (Z.to_nat n) (skipn (Z.to_nat off) buf)) = Z.to_nat n)
      by (rewrite firstn_length, skipn_length; unfold zlen in *; lia).
    rewrite nth_error_app2 by lia. rewrite L.
    destruct (Nat.lt_ge_cases i (Z.to_nat (n + m))) as [D|D].
    + rewrite !nth_error_firstn_lt by lia. rewrite !nth_error_skipn_add. f_equal. lia.
    + rewrite !(proj2 (nth_error_None _ _)); auto; rewrite firstn_length; lia.
Qed.
Lemma has_pair buf off a b : has buf off 4 a -> has buf (off + 4) 4 b ->
  has buf off 8 (a + b * 2 ^ 32).
Proof.
  intros (x & H1 & <-) (y & H2 & <-). exists (x ++ y). split.
  - change 8 with (4 + 4). now apply slice_app.
  - rewrite le_val_app. apply slice_length in H1. rewrite H1. change (256 ^ 4) with (2 ^ 32). lia.
Qed.

Lemma pair_bits a b : 0 <= a < 2 ^ 32 -> 0 <= b < 2 ^ 32 ->
  bits (a + b * 2 ^ 32) 31 0 = a /\ bits (a + b * 2 ^ 32) 63 32 = b.
Proof. intros Ha Hb. split; unbits; lia. Qed.
Lemma pair_testbit a b i : 0 <= a < 2 ^ 32 -> 0 <= i ->
  Z.testbit (a + b * 2 ^ 32) i = if i <? 32 then Z.testbit a i else Z.testbit b (i - 32).
Proof.
  intros Ha Hi.
  assert (E : a + b * 2 ^ 32 = Z.lor a (Z.shiftl b 32)).
  { rewrite Z.shiftl_mul_pow2 by lia. symmetry. rewrite Z.lor_comm, Z.add_comm.
    apply (lor_hi_lo _ _ 32); [lia| |lia]. apply Z.mod_mul. lia. }
  rewrite E, Z.lor_spec, Z.shiftl_spec by lia.
  destruct (Z.ltb_spec i 32).
  - rewrite (Z.testbit_neg_r b) by lia. apply orb_false_r.
  - rewrite (testbit_small_high a 32) by lia. reflexivity.
Qed.
Lemma pair_keeps m0 m1 a b a' b' : 0 <= m0 < 2 ^ 32 ->
  0 <= a < 2 ^ 32 -> 0 <= a' < 2 ^ 32 ->
  keeps m0 a a' -> keeps m1 b b' ->
  keeps (m0 + m1 * 2 ^ 32) (a + b * 2 ^ 32) (a' + b' * 2 ^ 32).
Proof.
  intros Hm Ha Ha' K0 K1 i Hi. rewrite !pair_testbit by auto.
  destruct (Z.ltb_spec i 32); intros M; [apply K0|apply K1]; auto. lia.
Qed.

(** ** The switch *)
Lemma undefinedb_eq s : is_undef_symbol s = undefinedb s.
Proof. reflexivity. Qed.

Definition rv_D (c : rctx) (prev : list rela) (s : sym) (syms : list sym) (D : Z) : Prop :=
  exists H, rv_find_hi prev syms (t_load c) (u64 (y_value s - t_addr c)) = Some H /\
    H <> 0 /\ D = H - y_value s.

Lemma rv_update4 buf loc f b (Q : Z -> Z -> Prop) :
  (forall w, 0 <= w < 2 ^ 32 -> 0 <= f w < 2 ^ 32 /\ Q w (f w)) -> bytes_ok buf ->
  update 4 buf loc f = Next b ->
  bytes_ok b /\ only_at buf b loc 4 /\
  exists w w', has buf loc 4 w /\ has b loc 4 w' /\ Q w w'.
Proof. apply update4_has. Qed.

Lemma update2_has buf loc f b (Q : Z -> Z -> Prop) :
  (forall w, 0 <= w < 2 ^ 16 -> 0 <= f w < 2 ^ 16 /\ Q w (f w)) -> bytes_ok buf ->
  update 2 buf loc f = Next b ->
  bytes_ok b /\ only_at buf b loc 2 /\
  exists w w', has buf loc 2 w /\ has b loc 2 w' /\ Q w w'.
Proof.
  intros Hf Hb H. destruct (update_inv _ _ _ _ _ H) as (w & H1 & H2 & H3 & H4).
  change (Z.of_nat 2) with 2 in *. pose proof (has_range _ _ _ _ Hb H1) as Hw.
  change (8 * 2) with 16 in *. destruct (Hf w Hw) as [R HQ].
  rewrite Z.mod_small in H3 by auto.
  split; [auto|]. split; [auto|]. exists w, (f w). auto.
Qed.

Lemma has_exists buf b off n n' v : has b off n v -> only_at buf b off n' ->
  exists w, has buf off n w.
Proof.
  intros (bs & Hs & _) [L _]. unfold has, slice, zlen in *. rewrite L in Hs.
  destruct (_ && _); [|discriminate]. eauto.
Qed.

Ltac rvdone O B w w' := split; [reflexivity|]; split; [exact B|]; split; [exact O|];
  intros _; exists w, w'.

Lemma rv_ignored_known ty : rv_ignored ty = true -> rv_known ty = true.
Proof.
  unfold rv_ignored. intros H. apply in_existsb in H. cbn [In] in H.
  repeat (destruct H as [H|H]; [subst ty; reflexivity|]). destruct H.
Qed.

Lemma rv_apply_inv c prev r s syms buf loc P val b :
  addr_ok val -> bytes_ok buf ->
  rv_apply c prev r s syms buf loc (u64 P) val = Next b ->
  rv_known (r_type r) = true /\ bytes_ok b /\
  only_at buf b loc (rv_width (r_type r)) /\
  (0 < rv_width (r_type r) -> exists w w',
     has buf loc (rv_width (r_type r)) w /\ has b loc (rv_width (r_type r)) w' /\
     (forall D, (In (r_type r) [24; 25] -> rv_D c prev s syms D) ->
        rv_right (r_type r) (rv_X c s r val) P D w w') /\
     (r_type r = 45 -> keeps cj_mask w w' /\ (val mod 2 = 0 -> cj_imm w' = sext 12 val)) /\
     (r_type r = 46 -> keeps clui_mask w w' /\ clui_imm w' = sext 18 (4096 * (val / 4096)))).
Proof.
  intros Hval Hb. unfold rv_apply, rv_X. generalize (r_type r). intros ty. cbv zeta.
  destruct (rv_ignored ty) eqn:Ei.
  { intros H. injection H as <-. split; [exact (rv_ignored_known _ Ei)|]. split; [auto|]. split; [apply only_at_refl|].
    intros Hw. exfalso. unfold rv_ignored in Ei. apply in_existsb in Ei. cbn [In] in Ei.
    repeat (destruct Ei as [Ei|Ei]; [subst ty; revert Hw; vm_compute; discriminate|]). destruct Ei. }
  unfold R_RISCV_32_PCREL, R_RISCV_32, R_RISCV_SET32, R_RISCV_64, R_RISCV_JAL, R_RISCV_CALL,
    R_RISCV_CALL_PLT, R_RISCV_PCREL_HI20, R_RISCV_HI20, R_RISCV_PCREL_LO12_I, R_RISCV_LO12_I,
    R_RISCV_PCREL_LO12_S, R_RISCV_LO12_S, R_RISCV_RVC_JUMP, R_RISCV_RVC_LUI, R_RISCV_TLS_GOT_HI20.
  assert (Set32 : forall v, fits_int v = true -> store 4 buf loc v = Next b ->
    bytes_ok b /\ only_at buf b loc 4 /\
    exists w w', has buf loc 4 w /\ has b loc 4 w' /\ sext 32 w' = sext 64 v).
  { intros v Hf H. apply store_inv in H. destruct H as (O & Hh & B).
    change (Z.of_nat 4) with 4 in *. change (8 * 4) with 32 in *.
    destruct (has_exists _ _ _ _ _ _ Hh O) as (w & Hw).
    split; [auto|]. split; [auto|]. exists w, (v mod 2 ^ 32). split; [auto|]. split; [auto|].
    rewrite <- (fits_int_true v Hf). apply sext_eq_mod; [lia|]. apply Z.mod_mod. lia. }
  destruct (Z.eqb_spec ty 57) as [Ty|N].
  { subst ty. cbn [Z.eqb Pos.eqb andb]. destruct (fits_int _) eqn:Ef; [|discriminate]. intros H.
    destruct (Set32 _ Ef H) as (B & O & w & w' & H1 & H2 & H3). rvdone O B w w'.
    split; [auto|]. split; [auto|]. split; [|split; discriminate]. intros D _.
    cbn. rewrite H3. unfold dist. apply sext_eq_mod; [lia|]. apply u64_sub_mod; [lia|reflexivity]. }
  destruct ((ty =? 1) || (ty =? 56)) eqn:E.
  { destruct (fits_int _) eqn:Ef; [|discriminate]. intros H.
    destruct (Set32 _ Ef H) as (B & O & w & w' & H1 & H2 & H3).
    assert (D : ty = 1 \/ ty = 56) by (clear - E; lia).
    destruct D; subst ty; rvdone O B w w';
      (split; [auto|]; split; [auto|]; split; [|split; discriminate]); intros; exact H3. }
  destruct (Z.eqb_spec ty 2) as [Ty|N2].
  { subst ty. cbn [Z.eqb Pos.eqb andb]. intros H. apply store_inv in H. destruct H as (O & Hh & B).
    change (Z.of_nat 8) with 8 in *. change (8 * 8) with 64 in *.
    destruct (has_exists _ _ _ _ _ _ Hh O) as (w & Hw).
    rewrite Z.mod_small in Hh by exact Hval.
    split; [reflexivity|]. split; [auto|]. split; [exact O|]. intros _. exists w, val.
    split; [auto|]. split; [auto|]. split; [|split; discriminate]. intros. reflexivity. }
  clear Set32.
  destruct (Z.eqb_spec ty 17) as [Ty|N17].
  { subst ty. cbn [Z.eqb Pos.eqb andb]. destruct (rv_range _ _ _); [|discriminate]. intros H.
    apply (rv_update4 _ _ _ _ (fun w w' => keeps j_mask w w' /\
      (dist val P mod 2 = 0 -> - 2 ^ 20 <= dist val P < 2 ^ 20 -> j_imm w' = dist val P))) in H; auto.
    2:{ intros w Hw. split; [apply set_jtype_imm_range|]. split; [now apply set_jtype_imm_keeps|].
        intros. apply j_imm_right; auto. apply dist_u64. }
    destruct H as (B & O & w & w' & H1 & H2 & H3). rvdone O B w w'.
    split; [auto|]. split; [auto|]. split; [|split; discriminate]. intros. exact H3. }
  destruct ((ty =? 18) || (ty =? 19)) eqn:E18.
  { destruct (fits_int _) eqn:Ef; [|discriminate].
    destruct (update 4 buf loc _) as [b1|b1| |] eqn:E1; try discriminate. intros H.
    apply (rv_update4 _ _ _ _ (fun w w' => (0 <= w < 2 ^ 32 /\ 0 <= w' < 2 ^ 32) /\ keeps u_mask w w' /\
      (hi_lo_reach (dist val P) -> u_imm w' + sext 12 (dist val P) = dist val P))) in E1; auto.
    2:{ intros w Hw. pose proof (set_utype_imm_range w (u64 (val - u64 P))).
        split; [auto|]. split; [auto|]. split; [now apply set_utype_imm_keeps|].
        intros. apply u_imm_right; auto. apply dist_u64. }
    destruct E1 as (B1 & O1 & w0 & w0' & H1 & H2 & Rw0 & H3 & H4).
    apply (rv_update4 _ _ _ _ (fun w w' => (0 <= w < 2 ^ 32 /\ 0 <= w' < 2 ^ 32) /\ keeps i_mask w w' /\
       i_imm w' = sext 12 (dist val P))) in H; auto.
    2:{ intros w Hw. pose proof (set_itype_imm_range w (u64 (val - u64 P))).
        split; [auto|]. split; [auto|]. split; [now apply set_itype_imm_keeps|].
        rewrite i_imm_right. apply sext_eq_mod; [lia|].
        rewrite <- (u64_mod (u64 (val - u64 P)) 12), <- (u64_mod (dist val P) 12) by lia.
        f_equal. exact (dist_u64 val P). }
    destruct H as (B2 & O2 & w1 & w1' & G1 & G2 & Rw1 & G3 & G4).
    assert (O : only_at buf b loc 8).
    { apply (only_at_trans _ b1).
      - apply (only_at_mono _ _ loc 4); [lia|lia|exact O1].
      - apply (only_at_mono _ _ (loc + 4) 4); [lia|lia|exact O2]. }
    assert (H2b : has b loc 4 w0') by (apply (only_at_has b1 b (loc + 4) 4); auto; lia).
    assert (G1b : has buf (loc + 4) 4 w1).
    { destruct G1 as (bs & Hs & <-). exists bs. split; [|reflexivity]. rewrite <- Hs. symmetry.
      apply (only_at_slice buf b1 loc 4); auto; lia. }
    assert (D : ty = 18 \/ ty = 19) by (clear - E18; lia).
    pose proof (has_pair _ _ _ _ H1 G1b) as HA. pose proof (has_pair _ _ _ _ H2b G2) as HB.
    destruct (pair_bits w0' w1') as [X0 X1]; [apply Rw0|apply Rw1|].
    assert (K : keeps (u_mask + i_mask * 2 ^ 32) (w0 + w1 * 2 ^ 32) (w0' + w1' * 2 ^ 32)).
    { apply pair_keeps; [vm_compute; split; congruence|apply Rw0|apply Rw0|exact H3|exact G3]. }
    assert (V : hi_lo_reach (dist val P) ->
      u_imm (bits (w0' + w1' * 2 ^ 32) 31 0) + i_imm (bits (w0' + w1' * 2 ^ 32) 63 32) = dist val P).
    { intros Hr. rewrite X0, X1, G4. auto. }
    destruct D; subst ty; rvdone O B2 (w0 + w1 * 2 ^ 32) (w0' + w1' * 2 ^ 32);
      (split; [auto|]; split; [auto|]; split; [|split; discriminate]); intros; split; [exact K|exact V|exact K|exact V]. }
  destruct (Z.eqb_spec ty 23) as [Ty|N23].
  { subst ty. cbn [Z.eqb Pos.eqb andb]. destruct (fits_int _); [|discriminate]. intros H.
    apply (rv_update4 _ _ _ _ (fun w w' => keeps u_mask w w' /\
      (hi_lo_reach (dist val P) -> u_imm w' + sext 12 (dist val P) = dist val P))) in H; auto.
    2:{ intros w Hw. split; [apply set_utype_imm_range|]. split; [now apply set_utype_imm_keeps|].
        intros. apply u_imm_right; auto. apply dist_u64. }
    destruct H as (B & O & w & w' & H1 & H2 & H3). rvdone O B w w'.
    split; [auto|]. split; [auto|]. split; [|split; discriminate]. intros. exact H3. }
  destruct (Z.eqb_spec ty 26) as [Ty|N26].
  { subst ty. cbn [Z.eqb Pos.eqb andb]. destruct (fits_int _); [|discriminate]. intros H.
    apply (rv_update4 _ _ _ _ (fun w w' => keeps u_mask w w' /\
      (hi_lo_reach (sext 64 val) -> u_imm w' + sext 12 val = sext 64 val))) in H; auto.
    2:{ intros w Hw. split; [apply set_utype_imm_range|]. split; [now apply set_utype_imm_keeps|].
        intros Hr. rewrite (sext_eq_mod 12 val (sext 64 val)); [|lia|].
        - apply u_imm_right; auto. symmetry. apply sext64_mod.
        - rewrite <- (u64_mod val 12), <- (u64_mod (sext 64 val) 12) by lia.
          unfold u64. rewrite sext64_mod. reflexivity. }
    destruct H as (B & O & w & w' & H1 & H2 & H3). rvdone O B w w'.
    split; [auto|]. split; [auto|]. split; [|split; discriminate]. intros. exact H3. }
  destruct (Z.eqb_spec ty 24) as [Ty|N24].
  { subst ty. cbn [Z.eqb Pos.eqb andb].
    destruct (rv_find_hi _ _ _ _) as [hi|] eqn:Eh; [|discriminate].
    destruct (hi =? 0) eqn:Ez; [discriminate|]. intros H.
    apply (rv_update4 _ _ _ _ (fun w w' => keeps i_mask w w' /\ i_imm w' = sext 12 (hi - y_value s))) in H; auto.
    2:{ intros w Hw. split; [apply set_itype_imm_range|]. split; [now apply set_itype_imm_keeps|].
        rewrite i_imm_right. apply sext12_u64. }
    destruct H as (B & O & w & w' & H1 & H2 & H3 & H4). rvdone O B w w'.
    split; [auto|]. split; [auto|]. split; [|split; discriminate]. intros D HD.
    destruct HD as (h & E1 & E2 & ->); [now left|]. rewrite Eh in E1. injection E1 as <-.
    split; auto. }
  destruct (Z.eqb_spec ty 27) as [Ty|N27].
  { subst ty. cbn [Z.eqb Pos.eqb andb]. intros H.
    apply (rv_update4 _ _ _ _ (fun w w' => keeps i_mask w w' /\ i_imm w' = sext 12 val)) in H; auto.
    2:{ intros w Hw. split; [apply set_itype_imm_range|]. split; [now apply set_itype_imm_keeps|].
        apply i_imm_right. }
    destruct H as (B & O & w & w' & H1 & H2 & H3). rvdone O B w w'.
    split; [auto|]. split; [auto|]. split; [|split; discriminate]. intros. exact H3. }
  destruct (Z.eqb_spec ty 25) as [Ty|N25].
  { subst ty. cbn [Z.eqb Pos.eqb andb].
    destruct (rv_find_hi _ _ _ _) as [hi|] eqn:Eh; [|discriminate].
    destruct (hi =? 0) eqn:Ez; [discriminate|]. intros H.
    apply (rv_update4 _ _ _ _ (fun w w' => keeps s_mask w w' /\ s_imm w' = sext 12 (hi - y_value s))) in H; auto.
    2:{ intros w Hw. split; [apply set_stype_imm_range|]. split; [now apply set_stype_imm_keeps|].
        rewrite s_imm_right. apply sext12_u64. }
    destruct H as (B & O & w & w' & H1 & H2 & H3 & H4). rvdone O B w w'.
    split; [auto|]. split; [auto|]. split; [|split; discriminate]. intros D HD.
    destruct HD as (h & E1 & E2 & ->); [right; now left|]. rewrite Eh in E1. injection E1 as <-.
    split; auto. }
  destruct (Z.eqb_spec ty 28) as [Ty|N28].
  { subst ty. cbn [Z.eqb Pos.eqb andb]. intros H.
    apply (rv_update4 _ _ _ _ (fun w w' => keeps s_mask w w' /\ s_imm w' = sext 12 val)) in H; auto.
    2:{ intros w Hw. split; [apply set_stype_imm_range|]. split; [now apply set_stype_imm_keeps|].
        apply s_imm_right. }
    destruct H as (B & O & w & w' & H1 & H2 & H3). rvdone O B w w'.
    split; [auto|]. split; [auto|]. split; [|split; discriminate]. intros. exact H3. }
  destruct (Z.eqb_spec ty 45) as [Ty|N45].
  { subst ty. cbn [Z.eqb Pos.eqb andb]. destruct (rv_range _ _ _); [|discriminate]. intros H.
    apply (update2_has _ _ _ _ (fun w w' => keeps cj_mask w w' /\
      (val mod 2 = 0 -> cj_imm w' = sext 12 val))) in H; auto.
    2:{ intros w Hw. split; [apply set_cjtype_imm_range|]. split; [now apply set_cjtype_imm_keeps|].
        intros. now apply cj_imm_right. }
    destruct H as (B & O & w & w' & H1 & H2 & H3). rvdone O B w w'.
    split; [auto|]. split; [auto|]. split; [intros; exact I|]. split; [intros; exact H3|discriminate]. }
  destruct (Z.eqb_spec ty 46) as [Ty|N46].
  { subst ty. cbn [Z.eqb Pos.eqb andb]. destruct (rv_range _ _ _); [|discriminate]. intros H.
    apply (update2_has _ _ _ _ (fun w w' => keeps clui_mask w w' /\
      clui_imm w' = sext 18 (4096 * (val / 4096)))) in H; auto.
    2:{ intros w Hw. split; [apply set_citype_imm_range|]. split; [now apply set_citype_imm_keeps|].
        apply clui_imm_right. }
    destruct H as (B & O & w & w' & H1 & H2 & H3). rvdone O B w w'.
    split; [auto|]. split; [auto|]. split; [intros; exact I|]. split; [discriminate|intros; exact H3]. }
  destruct (Z.eqb_spec ty 21) as [Ty|N21]; [|discriminate].
  subst ty. cbn [Z.eqb Pos.eqb andb]. unfold STT_TLS. intros H.
  set (X := if negb (is_undef_symbol s) && (y_type s =? 6) then u64 (r_addend r + t_load c) else val) in *.
  apply (rv_update4 _ _ _ _ (fun w w' => keeps u_mask w w' /\
      (hi_lo_reach (dist X P) -> u_imm w' + sext 12 (dist X P) = dist X P))) in H; auto.
  2:{ intros w Hw. split; [apply set_utype_imm_range|]. split; [now apply set_utype_imm_keeps|].
      intros. apply u_imm_right; auto. apply dist_u64. }
  destruct H as (B & O & w & w' & H1 & H2 & H3). rvdone O B w w'.
  split; [auto|]. split; [auto|]. split; [|split; discriminate]. intros. exact H3.
Qed.

(** ** One entry *)
Lemma rv_adjust_none e r s st : rv_adjusts s (r_type r) = false ->
  rv_adjust e r s st = Next (false, st).
Proof.
  unfold rv_adjusts, rv_adjust, STT_OBJECT, R_RISCV_HI20, R_RISCV_TLS_GOT_HI20, R_RISCV_RVC_LUI.
  change (undefinedb s) with (is_undef_symbol s). cbn [existsb]. intros H.
  destruct (negb (is_undef_symbol s) || negb (y_type s =? 1) ||
    (negb (r_type r =? 26) && negb (r_type r =? 21) && negb (r_type r =? 46))) eqn:E; [reflexivity|].
  exfalso. destruct (is_undef_symbol s), (y_type s =? 1), (r_type r =? 26), (r_type r =? 21),
    (r_type r =? 46); discriminate.
Qed.

(** A PCREL_LO12 entry after its PCREL_HI20 entry. *)
Lemma rv_find_hi_hit prev0 r1 prev syms load v s1 :
  Forall (fun r => r_offset r <> v) prev0 ->
  r_offset r1 = v -> r_type r1 = 23 ->
  nth_error syms (Z.to_nat (r_sym r1)) = Some s1 ->
  rv_find_hi (prev0 ++ r1 :: prev) syms load v = Some (y_value s1).
Proof.
  intros HF Ho Ht Hs. induction HF as [|r prev0 Hr HF IH]; cbn [rv_find_hi app].
  - rewrite Ho, Ht, Hs, Z.eqb_refl. reflexivity.
  - destruct (Z.eqb_spec (r_offset r) v); [contradiction|]. exact IH.
Qed.

Lemma rv_unknown_fails e c prev r st s :
  nth_error (v_syms st) (Z.to_nat (r_sym r)) = Some s ->
  t_size c <= r_offset r \/ rv_known (r_type r) = false -> rv_reloc e c prev r st = Fail.
Proof.
  intros Hs Hk. unfold rv_reloc. destruct (Z.leb_spec (t_size c) (r_offset r)); [reflexivity|].
  destruct Hk as [Hk|Hk]; [lia|]. rewrite Hs.
  assert (Hi : rv_ignored (r_type r) = false).
  { destruct (rv_ignored (r_type r)) eqn:E; [|reflexivity]. apply rv_ignored_known in E. congruence. }
  rewrite rv_adjust_none.
  - rewrite Hs. unfold rv_apply. rewrite Hi. unfold rv_known in Hk. cbn [existsb] in Hk.
    unfold R_RISCV_32_PCREL, R_RISCV_32, R_RISCV_SET32, R_RISCV_64, R_RISCV_JAL, R_RISCV_CALL,
    R_RISCV_CALL_PLT, R_RISCV_PCREL_HI20, R_RISCV_HI20, R_RISCV_PCREL_LO12_I, R_RISCV_LO12_I,
    R_RISCV_PCREL_LO12_S, R_RISCV_LO12_S, R_RISCV_RVC_JUMP, R_RISCV_RVC_LUI, R_RISCV_TLS_GOT_HI20.
    repeat (apply orb_false_iff in Hk; let K := fresh in destruct Hk as [K Hk]; rewrite ?K; clear K).
    reflexivity.
  - unfold rv_adjusts. unfold rv_known in Hk. cbn [existsb] in *.
    repeat (apply orb_false_iff in Hk; let K := fresh in destruct Hk as [K Hk]; rewrite ?K; clear K).
    apply andb_false_r.
Qed.

(** the switch never ends the loop early *)
Lemma rv_no_stop c prev r s syms buf loc loc2 val b :
  rv_apply c prev r s syms buf loc loc2 val <> Stop b.
Proof.
  unfold rv_apply. intros H.
  repeat match type of H with
         | (if ?x then _ else _) = _ => destruct x
         | (let _ := _ in _) = _ => cbv zeta in H
         | match ?x with _ => _ end = _ => destruct x eqn:?
         end; try discriminate;
  try (now apply (store_stop _ _ _ _ _ H)); try (now apply (update_stop _ _ _ _ _ H));
  try (injection H as <-; eapply update_stop; eassumption).
Qed.

(** ** A whole section *)
(** One entry as a step on the bytes alone, when no symbol is adjusted. *)
Definition rv_one (c : rctx) (syms : list sym) (prev : list rela) (r : rela) (buf : list Z)
  : step (list Z) :=
  if t_size c <=? r_offset r then Fail
  else match nth_error syms (Z.to_nat (r_sym r)) with
       | None => Undef
       | Some s => rv_apply c prev r s syms buf (t_off c + r_offset r)
                     (u64 (t_addr c + r_offset r)) (u64 (y_value s + r_addend r))
       end.

Lemma rv_reloc_one e c prev r st : rv_plain (v_syms st) r ->
  rv_reloc e c prev r st =
  match rv_one c (v_syms st) prev r (v_buf st) with
  | Next b => Next {| v_buf := b; v_syms := v_syms st; v_tab := v_tab st |}
  | Stop b => Stop {| v_buf := b; v_syms := v_syms st; v_tab := v_tab st |}
  | Fail => Fail | Undef => Undef
  end.
Proof.
  intros Hp. unfold rv_reloc, rv_one. destruct (_ <=? _); [reflexivity|].
  destruct (nth_error _ _) as [s|] eqn:Es; [|reflexivity].
  rewrite (rv_adjust_none _ _ _ _ (Hp _ Es)), Es. reflexivity.
Qed.

Lemma rv_loop_buf e c rs : forall prev st st',
  Forall (rv_plain (v_syms st)) rs ->
  apply_loop (rv_reloc e c) prev rs st = ROk st' ->
  v_syms st' = v_syms st /\ v_tab st' = v_tab st /\
  apply_loop (rv_one c (v_syms st)) prev rs (v_buf st) = ROk (v_buf st').
Proof.
  induction rs as [|r rs IH]; intros prev st st' HF; cbn [apply_loop].
  - intros H. injection H as <-. auto.
  - inversion HF as [|? ? Hr HF']; subst. rewrite (rv_reloc_one _ _ _ _ _ Hr).
    destruct (rv_one c (v_syms st) prev r (v_buf st)) as [b|b| |]; try discriminate.
    + intros H. apply IH in H; [|exact HF']. exact H.
    + intros H. injection H as <-. auto.
Qed.

(** As [loop_fields], with the entries that come before. *)
Section Fields.
Variable one : list rela -> rela -> list Z -> step (list Z).
Variables f w : rela -> Z.
Variable R : list rela -> rela -> option (list Z) -> option (list Z) -> Prop.

Lemma loop_fields_prev rs : forall prev buf buf',
  (forall prev r a b, In r rs -> bytes_ok a -> one prev r a = Next b ->
     bytes_ok b /\ only_at a b (f r) (w r) /\
     R prev r (slice a (f r) (w r)) (slice b (f r) (w r))) ->
  (forall prev r a b, In r rs -> one prev r a <> Stop b) ->
  ForallOrdPairs (fun r1 r2 => f r1 + w r1 <= f r2 \/ f r2 + w r2 <= f r1) rs ->
  bytes_ok buf -> apply_loop one prev rs buf = ROk buf' ->
  (forall rs1 r rs2, rs = rs1 ++ r :: rs2 ->
     R (rev rs1 ++ prev) r (slice buf (f r) (w r)) (slice buf' (f r) (w r))).
Proof.
  induction rs as [|r rs IH]; intros prev buf buf' Hone Hstop Hd Hb; cbn [apply_loop].
  - intros _ rs1 r rs2 Ers. destruct rs1; discriminate.
  - destruct (one prev r buf) as [b|b| |] eqn:E; try discriminate.
    2:{ exfalso. eapply Hstop; [now left|eauto]. }
    intros H. inversion Hd as [|? ? Hr Hrs]; subst.
    destruct (Hone prev r buf b (or_introl eq_refl) Hb E) as (Hbb & O & HR).
    assert (Hone' : forall prev r' a b, In r' rs -> bytes_ok a -> one prev r' a = Next b ->
       bytes_ok b /\ only_at a b (f r') (w r') /\ R prev r' (slice a (f r') (w r')) (slice b (f r') (w r'))).
    { intros; eapply Hone; eauto. now right. }
    assert (Hstop' : forall prev r' a b, In r' rs -> one prev r' a <> Stop b).
    { intros; eapply Hstop; eauto. now right. }
    rewrite Forall_forall in Hr.
    destruct (loop_fields one f w (fun _ _ _ => True) rs (r :: prev) b buf') as (_ & _ & _ & S); auto.
    { intros p r' a b' Hi Ha E'. destruct (Hone' p r' a b' Hi Ha E') as (X & Y & _). auto. }
    intros rs1 r' rs2 Ers. destruct rs1 as [|r0 rs1]; injection Ers as -> ->.
    + cbn [rev app]. rewrite (S (f r') (w r')) by (intros r'' Hr''; destruct (Hr r'' Hr''); lia).
      exact HR.
    + assert (Hin : In r' (rs1 ++ r' :: rs2)) by (apply in_or_app; right; now left).
      rewrite <- (only_at_slice buf b (f r0) (w r0)) by (try exact O; destruct (Hr r' Hin); lia).
      cbn [rev]. rewrite <- app_assoc. cbn [app].
      eapply (IH (r0 :: prev) b buf' Hone' Hstop' Hrs Hbb H rs1 r' rs2). reflexivity.
Qed.
End Fields.

Definition rv_field_ok (c : rctx) (syms : list sym) (prev : list rela) (r : rela) (s : sym)
    (w w' : Z) : Prop :=
  (forall D, (In (r_type r) [24; 25] -> rv_D c prev s syms D) ->
     rv_right (r_type r) (rv_X c s r (u64 (y_value s + r_addend r))) (place c r) D w w') /\
  (r_type r = 45 -> keeps cj_mask w w' /\
     ((y_value s + r_addend r) mod 2 = 0 -> cj_imm w' = sext 12 (y_value s + r_addend r))) /\
  (r_type r = 46 -> keeps clui_mask w w' /\
     clui_imm w' = sext 18 (4096 * ((y_value s + r_addend r) / 4096))).

Lemma rv_one_inv c syms prev r s buf b :
  nth_error syms (Z.to_nat (r_sym r)) = Some s -> bytes_ok buf ->
  rv_one c syms prev r buf = Next b ->
  r_offset r < t_size c /\ rv_known (r_type r) = true /\ bytes_ok b /\
  only_at buf b (locn c r) (rv_width (r_type r)) /\
  (0 < rv_width (r_type r) -> exists w w',
     has buf (locn c r) (rv_width (r_type r)) w /\
     has b (locn c r) (rv_width (r_type r)) w' /\ rv_field_ok c syms prev r s w w').
Proof.
  intros Hs Hb. unfold rv_one. destruct (Z.leb_spec (t_size c) (r_offset r)); [discriminate|].
  rewrite Hs. intros E.
  apply rv_apply_inv in E; [|apply u64_range|exact Hb].
  destruct E as (K & B & O & Hw).
  split; [auto|]. split; [auto|]. split; [auto|]. split; [exact O|].
  intros Hp. destruct (Hw Hp) as (w & w' & H2 & H3 & H4 & H5 & H6).
  exists w, w'. split; [exact H2|]. split; [exact H3|]. split; [|split].
  - intros D HD. exact (H4 D HD).
  - intros T. destruct (H5 T) as [K1 V1]. split; [auto|]. intros He. rewrite V1.
    + apply sext_eq_mod; [lia|]. apply u64_mod. lia.
    + change 2 with (2 ^ 1) at 1. rewrite u64_mod by lia. exact He.
  - intros T. destruct (H6 T) as [K1 V1]. split; [auto|]. rewrite V1.
    apply sext_eq_mod; [lia|]. unfold u64. clear. pw. lia.
Qed.

Lemma rv_section e c rs st st' :
  apply_loop (rv_reloc e c) [] rs st = ROk st' -> bytes_ok (v_buf st) ->
  Forall (rv_plain (v_syms st)) rs ->
  disjoint_fields rv_width c rs ->
  v_syms st' = v_syms st /\ v_tab st' = v_tab st /\
  length (v_buf st') = length (v_buf st) /\
  (forall i, 0 <= i ->
     (forall r, In r rs -> ~ in_range i (locn c r) (rv_width (r_type r))) ->
     nth_error (v_buf st') (Z.to_nat i) = nth_error (v_buf st) (Z.to_nat i)) /\
  (forall rs1 r rs2 s, rs = rs1 ++ r :: rs2 ->
     nth_error (v_syms st) (Z.to_nat (r_sym r)) = Some s ->
     0 < rv_width (r_type r) -> exists w w',
     has (v_buf st) (locn c r) (rv_width (r_type r)) w /\
     has (v_buf st') (locn c r) (rv_width (r_type r)) w' /\
     rv_field_ok c (v_syms st) (rev rs1) r s w w').
Proof.
  intros H Hb HF Hd. apply rv_loop_buf in H; [|exact HF]. destruct H as (Y & T & H).
  split; [exact Y|]. split; [exact T|].
  assert (Hnone : forall prev r a b, nth_error (v_syms st) (Z.to_nat (r_sym r)) = None ->
    rv_one c (v_syms st) prev r a <> Next b).
  { intros prev r a b En. unfold rv_one. rewrite En. destruct (_ <=? _); discriminate. }
  assert (Hstop : forall prev r a b, In r rs -> rv_one c (v_syms st) prev r a <> Stop b).
  { intros prev r a b _. unfold rv_one. destruct (_ <=? _); [discriminate|].
    destruct (nth_error _ _); [|discriminate]. apply rv_no_stop. }
  destruct (loop_fields (rv_one c (v_syms st)) (locn c) (fun r => rv_width (r_type r))
    (fun _ _ _ => True) rs [] (v_buf st) (v_buf st')) as (L & K & _); auto.
  { intros prev r a b _ Ha E. destruct (nth_error (v_syms st) (Z.to_nat (r_sym r))) as [s|] eqn:Es.
    - destruct (rv_one_inv _ _ _ _ _ _ _ Es Ha E) as (_ & _ & B & O & _). auto.
    - exfalso. exact (Hnone _ _ _ _ Es E). }
  split; [exact L|]. split; [exact K|].
  intros rs1 r rs2 s Ers Es Hw.
  pose proof (loop_fields_prev (rv_one c (v_syms st)) (locn c) (fun r => rv_width (r_type r))
    (fun prev r o o' => forall s, nth_error (v_syms st) (Z.to_nat (r_sym r)) = Some s ->
       0 < rv_width (r_type r) -> exists bs bs', o = Some bs /\ o' = Some bs' /\
       rv_field_ok c (v_syms st) prev r s (le_val bs) (le_val bs'))
    rs [] (v_buf st) (v_buf st')) as Q.
  destruct (Q) with (rs1 := rs1) (r := r) (rs2 := rs2) (s := s) as (bs & bs' & H1 & H2 & H3); auto.
  { intros prev r0 a b _ Ha E. destruct (nth_error (v_syms st) (Z.to_nat (r_sym r0))) as [s0|] eqn:Es0.
    - destruct (rv_one_inv _ _ _ _ _ _ _ Es0 Ha E) as (_ & _ & B & O & G).
      split; [auto|]. split; [auto|]. intros s1 E1 W. injection E1 as <-.
      destruct (G W) as (w & w' & (bs & X1 & <-) & (bs' & X2 & <-) & X3). exists bs, bs'. auto.
    - exfalso. exact (Hnone _ _ _ _ Es0 E). }
  rewrite app_nil_r in H3.
  exists (le_val bs), (le_val bs'). split; [exists bs; auto|]. split; [exists bs'; auto|]. exact H3.
Qed.

(** auipc with PCREL_HI20 and a load, store or addi with PCREL_LO12 whose
    symbol is the label of the auipc *)
Lemma rv_pair e c rs st st' rs1 r1 rs2 r2 rs3 s1 s2 :
  apply_loop (rv_reloc e c) [] rs st = ROk st' -> bytes_ok (v_buf st) ->
  Forall (rv_plain (v_syms st)) rs ->
  disjoint_fields rv_width c rs ->
  rs = rs1 ++ r1 :: rs2 ++ r2 :: rs3 ->
  r_type r1 = 23 -> In (r_type r2) [24; 25] ->
  nth_error (v_syms st) (Z.to_nat (r_sym r1)) = Some s1 ->
  nth_error (v_syms st) (Z.to_nat (r_sym r2)) = Some s2 ->
  0 <= r_offset r1 < 2 ^ 64 -> y_value s2 = place c r1 -> y_value s1 <> 0 ->
  Forall (fun r => r_offset r <> r_offset r1) rs2 ->
  r_addend r1 = 0 -> addr_ok (y_value s1) ->
  hi_lo_reach (dist (y_value s1) (place c r1)) ->
  exists w1 w2,
    has (v_buf st') (locn c r1) 4 w1 /\ has (v_buf st') (locn c r2) 4 w2 /\
    u_imm w1 + (if r_type r2 =? 24 then i_imm w2 else s_imm w2) =
      dist (y_value s1) (place c r1).
Proof.
  intros H Hb HF Hd Ers T1 T2 S1 S2 Ho Hl Hnz Hfar Ha Hok Hr.
  destruct (rv_section _ _ _ _ _ H Hb HF Hd) as (_ & _ & _ & _ & Q).
  assert (W1 : rv_width (r_type r1) = 4) by (rewrite T1; reflexivity).
  assert (W2 : rv_width (r_type r2) = 4).
  { destruct T2 as [T2|[T2|[]]]; rewrite <- T2; reflexivity. }
  destruct (Q rs1 r1 (rs2 ++ r2 :: rs3) s1 Ers S1) as (w1 & w1' & _ & Hw1 & F1 & _); [lia|].
  destruct (Q (rs1 ++ r1 :: rs2) r2 rs3 s2) as (w2 & w2' & _ & Hw2 & F2 & _); auto.
  { rewrite Ers, <- app_assoc. reflexivity. }
  { lia. }
  rewrite W1 in Hw1. rewrite W2 in Hw2. exists w1', w2'. split; [auto|]. split; [auto|].
  specialize (F1 0). rewrite T1 in F1. unfold rv_right in F1. cbn [Z.eqb Pos.eqb existsb orb] in F1.
  destruct F1 as [_ V1]; [intros [?|[?|[]]]; discriminate|].
  assert (X1 : rv_X c s1 r1 (u64 (y_value s1 + r_addend r1)) = y_value s1).
  { unfold rv_X. rewrite T1, Ha. cbn [Z.eqb Pos.eqb andb]. rewrite Z.add_0_r.
    apply u64_small. exact Hok. }
  rewrite X1 in V1. specialize (V1 Hr).
  specialize (F2 (y_value s1 - y_value s2)).
  assert (ED : sext 12 (y_value s1 - y_value s2) = sext 12 (dist (y_value s1) (place c r1))).
  { unfold dist. apply sext_eq_mod; [lia|].
    rewrite <- (u64_mod (sext 64 _) 12) by lia. unfold u64. rewrite sext64_mod, Hl.
    rewrite mod_mod_pow by lia. reflexivity. }
  assert (HD : rv_D c (rev (rs1 ++ r1 :: rs2)) s2 (v_syms st) (y_value s1 - y_value s2)).
  { exists (y_value s1). split; [|auto].
    rewrite rev_app_distr. cbn [rev]. rewrite <- app_assoc. cbn [app].
    replace (u64 (y_value s2 - t_addr c)) with (r_offset r1).
    2:{ rewrite Hl. unfold place. replace (t_addr c + r_offset r1 - t_addr c) with (r_offset r1) by lia.
        symmetry. apply u64_small. exact Ho. }
    apply rv_find_hi_hit; auto. apply Forall_rev. exact Hfar. }
  specialize (F2 (fun _ => HD)).
  destruct T2 as [T2|[T2|[]]]; rewrite <- T2 in F2 |- *; unfold rv_right in F2;
    cbn [Z.eqb Pos.eqb existsb orb] in F2 |- *; destruct F2 as [_ V2]; rewrite V2, ED; exact V1.
Qed.
