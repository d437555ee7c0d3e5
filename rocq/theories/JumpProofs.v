From Coq Require Import ZArith List Bool Lia ZifyBool ZifyNat.
From Verif Require Import Base BaseProofs BitTac JumpSpec JumpModel.
Import ListNotations.
Open Scope Z_scope.
Ltac Zify.zify_post_hook ::= Z.div_mod_to_equations.

(** Evaluate the powers of two so that [lia] sees constants. *)
Ltac pows :=
  change (2 ^ 64) with 18446744073709551616 in *;
  change (2 ^ 63) with 9223372036854775808 in *;
  change (2 ^ 32) with 4294967296 in *;
  change (2 ^ 31) with 2147483648 in *;
  change (2 ^ 27) with 134217728 in *;
  change (2 ^ 26) with 67108864 in *;
  change (2 ^ 25) with 33554432 in *;
  change (2 ^ 20) with 1048576 in *;
  change (2 ^ 16) with 65536 in *;
  change (2 ^ 12) with 4096 in *;
  change (2 ^ 11) with 2048 in *;
  change (2 ^ 10) with 1024 in *;
  change (2 ^ 8) with 256 in *.

Lemma sext_plus n x y : 0 < n -> sext n (x + y) = sext n (sext n x + y).
Proof.
  intros Hn. apply sext_eq_mod; [lia|].
  rewrite (Z.add_mod (sext n x)), sext_mod, <- Z.add_mod by lia. reflexivity.
Qed.

(** Jumping by [disp] (mod 2^64) reaches [s] exactly if [disp] is the signed
    distance. *)
Lemma reach_iff d s disp : addr_ok d -> addr_ok s -> - 2 ^ 63 <= disp < 2 ^ 63 ->
  (u64 (d + disp) = s <-> disp = sext 64 (s - d)).
Proof.
  unfold addr_ok, u64, sext. intros Hd Hs Hr.
  change (64 - 1) with 63 in *. pows.
  destruct (Z.ltb_spec ((s - d) mod 18446744073709551616) 9223372036854775808); lia.
Qed.

Lemma x86_jump_iff d s : addr_ok d -> addr_ok s ->
  (x86_exec d (x86_code d s) = Some s <-> - 2 ^ 31 <= sext 64 (s - d - 5) < 2 ^ 31).
Proof.
  intros Hd Hs. unfold x86_code, x86_exec.
  destruct (le_bytes 4 (u32 (u64 (s - d - 5)))) as [|d0 [|d1 [|d2 [|d3 [|]]]]] eqn:E;
    try (apply (f_equal (@length Z)) in E; rewrite le_bytes_length in E; discriminate).
  change (0xe9 =? 0xE9) with true. cbv iota. rewrite <- E, le_val_bytes.
  change (256 ^ Z.of_nat 4) with (2 ^ 32).
  set (disp := sext 32 (u32 (u64 (s - d - 5)) mod 2 ^ 32)).
  assert (Hdisp : disp = sext 32 (s - d - 5)).
  { unfold disp. apply sext_eq_mod; [lia|]. unfold u32, u64. pows. lia. }
  assert (Hr : - 2 ^ 31 <= disp < 2 ^ 31) by (apply (sext_range 32); lia).
  replace (d + 5 + disp) with (d + (5 + disp)) by lia.
  assert (Hiff : Some (u64 (d + (5 + disp))) = Some s <-> u64 (d + (5 + disp)) = s)
    by (split; congruence).
  rewrite Hiff. rewrite reach_iff by (auto; pows; lia).
  rewrite Hdisp in *. clear - Hd Hs Hr. unfold addr_ok in *.
  unfold sext in *. change (32 - 1) with 31 in *. change (64 - 1) with 63. pows.
  destruct (Z.ltb_spec ((s - d - 5) mod 4294967296) 2147483648);
  destruct (Z.ltb_spec ((s - d - 5) mod 18446744073709551616) 9223372036854775808);
  destruct (Z.ltb_spec ((s - d) mod 18446744073709551616) 9223372036854775808); lia.
Qed.

(** AArch64 *)
Lemma a64_word d s :
  zlen (a64_code d s) = 4 /\
  le_val (a64_code d s) = 5 * 2 ^ 26 + (u32 (u64 (s - d)) / 4) mod 2 ^ 26.
Proof.
  unfold a64_code. set (w := u32 (u64 (s - d)) / 4).
  assert (Hw : 0 <= w < 2 ^ 30).
  { unfold w. pose proof (u32_range (u64 (s - d))). change (2 ^ 30) with 1073741824. pows. lia. }
  cbn [le_bytes]. split; [reflexivity|].
  set (c3 := w / 256 / 256 / 256 mod 256).
  change 0x3 with (2 ^ 2 - 1). rewrite land_low by lia.
  rewrite lor_plus.
  2:{ rewrite Z.land_comm. apply (land_disj 20 (c3 mod 2 ^ 2) 2); [lia|reflexivity|lia]. }
  cbn [le_val]. unfold c3. change (2 ^ 2) with 4. change (2 ^ 30) with 1073741824 in *. pows. lia.
Qed.

Lemma a64_jump_iff d s : addr_ok d -> addr_ok s ->
  (a64_exec d (a64_code d s) = Some s <->
   (s - d) mod 4 = 0 /\ - 2 ^ 27 <= sext 64 (s - d) < 2 ^ 27).
Proof.
  intros Hd Hs. unfold a64_exec. destruct (a64_word d s) as [HL HV]. rewrite HL, HV.
  change (4 =? 4) with true. cbv iota zeta.
  set (w := u32 (u64 (s - d)) / 4) in *.
  replace (bits (5 * 2 ^ 26 + w mod 2 ^ 26) 31 26) with 5
    by (unfold bits; change (31 - 26 + 1) with 6; change (2 ^ 6) with 64; pows; lia).
  change (5 =? 5) with true. cbv iota.
  replace (bits (5 * 2 ^ 26 + w mod 2 ^ 26) 25 0) with (w mod 2 ^ 26)
    by (unfold bits; change (25 - 0 + 1) with 26; change (2 ^ 0) with 1; pows; lia).
  set (i := sext 26 (w mod 2 ^ 26)).
  assert (Hr : - 2 ^ 25 <= i < 2 ^ 25) by (apply (sext_range 26); lia).
  assert (Hiff : Some (u64 (d + 4 * i)) = Some s <-> u64 (d + 4 * i) = s) by (split; congruence).
  rewrite Hiff, reach_iff by (auto; pows; lia).
  subst i w. clear Hiff HL HV. unfold addr_ok in *.
  unfold sext in *. change (26 - 1) with 25 in *. change (64 - 1) with 63.
  unfold u32, u64 in *. pows.
  destruct (Z.ltb_spec ((((s - d) mod 18446744073709551616) mod 4294967296 / 4) mod 67108864 mod 67108864) 33554432);
  destruct (Z.ltb_spec ((s - d) mod 18446744073709551616) 9223372036854775808); lia.
Qed.

(** RISC-V *)
Lemma rv_words imm : 0 <= imm < 2 ^ 64 ->
  set_utype_imm 0xf97 imm = ((imm + 2048) / 4096 mod 2 ^ 20) * 2 ^ 12 + 0xf97 /\
  set_itype_imm 0xf8067 imm = (imm mod 4096) * 2 ^ 20 + 0xf8067.
Proof.
  intros Hi. unfold set_utype_imm, set_itype_imm. split.
  - change (Z.land imm 0x800) with (Z.land imm (Z.shiftl (Z.ones 1) 11)). rewrite land_field by lia.
    change 0xfffff000 with (Z.shiftl (Z.ones 20) 12). rewrite land_field by lia.
    change (Z.land 0xf97 0xfff) with 0xf97.
    rewrite Z.shiftl_mul_pow2 by lia.
    rewrite (lor_hi_lo _ 0xf97 12) by (try lia; pows; lia).
    unfold u32, u64. change (2 ^ 1) with 2.
    set (b := (imm / 2 ^ 11) mod 2).
    assert (Hb : 0 <= b < 2) by (unfold b; lia).
    assert (Hb2 : (imm + 2048) / 4096 = imm / 4096 + b) by (unfold b; pows; lia).
    rewrite (Z.mod_small (b * 2 ^ 11 * 2)) by (pows; lia).
    rewrite Hb2. clear Hb2. clearbody b.
    assert (E : ((imm + b * 2 ^ 11 * 2) mod 2 ^ 64 / 2 ^ 12) mod 2 ^ 20 = (imm / 4096 + b) mod 2 ^ 20).
    { pows. replace (imm + b * 2048 * 2) with (imm + b * 4096) by lia. lia. }
    rewrite E. pows. lia.
  - change 0xfff with (2 ^ 12 - 1). rewrite land_low by lia.
    change (Z.land 0xf8067 0xfffff) with 0xf8067.
    rewrite Z.shiftl_mul_pow2 by lia.
    unfold u64. rewrite (Z.mod_small (imm mod 2 ^ 12 * 2 ^ 20)) by (pows; lia).
    rewrite (lor_hi_lo _ 0xf8067 20) by (try lia; pows; lia).
    unfold u32. pows. lia.
Qed.

Lemma rv_exec_words d w0 w1 imm20 imm12 :
  w0 = imm20 * 2 ^ 12 + 0xf97 -> w1 = imm12 * 2 ^ 20 + 0xf8067 ->
  0 <= imm20 < 2 ^ 20 -> 0 <= imm12 < 2 ^ 12 ->
  rv_exec d (le_bytes 4 w0 ++ le_bytes 4 w1) =
  Some (2 * (u64 (u64 (d + sext 32 (imm20 * 2 ^ 12)) + sext 12 imm12) / 2)).
Proof.
  intros E0 E1 H0 H1. unfold rv_exec.
  assert (S0 : slice (le_bytes 4 w0 ++ le_bytes 4 w1) 0 4 = Some (le_bytes 4 w0)) by reflexivity.
  assert (S1 : slice (le_bytes 4 w0 ++ le_bytes 4 w1) 4 4 = Some (le_bytes 4 w1)) by reflexivity.
  rewrite S0, S1. rewrite !le_val_bytes. change (256 ^ Z.of_nat 4) with (2 ^ 32).
  rewrite (Z.mod_small w0), (Z.mod_small w1) by (subst; pows; lia).
  change (zlen (le_bytes 4 w0 ++ le_bytes 4 w1) =? 8) with true.
  assert (B : bits w0 6 0 = 0x17 /\ bits w1 6 0 = 0x67 /\ bits w1 14 12 = 0 /\ bits w1 11 7 = 0
              /\ bits w1 19 15 = 31 /\ bits w0 11 7 = 31 /\ bits w0 31 12 = imm20
              /\ bits w1 31 20 = imm12).
  { unfold bits. subst. cbn [Z.sub Z.add Z.opp Z.pos_sub Pos.sub_mask].
    change (6 - 0 + 1) with 7. change (14 - 12 + 1) with 3. change (11 - 7 + 1) with 5.
    change (19 - 15 + 1) with 5. change (31 - 12 + 1) with 20. change (31 - 20 + 1) with 12.
    change (2 ^ 0) with 1. change (2 ^ 7) with 128. change (2 ^ 3) with 8.
    change (2 ^ 5) with 32. change (2 ^ 15) with 32768. pows. repeat split; lia. }
  destruct B as (-> & -> & -> & -> & -> & -> & -> & ->). reflexivity.
Qed.

Lemma mod64_mod32 z y : z mod 2 ^ 64 = y mod 2 ^ 64 -> z mod 2 ^ 32 = y mod 2 ^ 32.
Proof.
  intros H. pows. lia.
Qed.

Lemma rv_jump_iff d s : addr_ok d -> addr_ok s ->
  (rv_exec d (rv_code d s) = Some s <->
   s mod 2 = 0 /\ - 2 ^ 31 - 2 ^ 11 <= sext 64 (s - d) < 2 ^ 31 - 2 ^ 11).
Proof.
  intros Hd Hs. unfold rv_code.
  set (imm := u64 (s32 (u64 (s - d)))).
  assert (Hi : 0 <= imm < 2 ^ 64) by apply u64_range.
  destruct (rv_words imm Hi) as [E0 E1].
  rewrite (rv_exec_words d _ _ _ _ E0 E1) by (pows; lia).
  set (i20 := (imm + 2048) / 4096 mod 2 ^ 20) in *. set (i12 := imm mod 4096) in *.
  assert (Hm : imm mod 2 ^ 32 = (s - d) mod 2 ^ 32).
  { unfold imm, u64, s32. 
    assert (Hx := sext_mod 32 ((s - d) mod 2 ^ 64) ltac:(lia)). revert Hx.
    generalize (sext 32 ((s - d) mod 2 ^ 64)). intros z Hz. pows. lia. }
  (* the jump offset, in Z *)
  set (off := sext 32 (i20 * 2 ^ 12) + sext 12 i12).
  assert (Hoff : off mod 2 ^ 32 = (s - d) mod 2 ^ 32 /\ - 2 ^ 31 - 2 ^ 11 <= off < 2 ^ 31 - 2 ^ 11).
  { unfold off, sext, i20, i12. change (32 - 1) with 31. change (12 - 1) with 11.
    change 4096 with (2 ^ 12) in *. pows.
    destruct (Z.ltb_spec (((imm + 2048) / 4096) mod 1048576 * 4096 mod 4294967296) 2147483648);
    destruct (Z.ltb_spec (imm mod 4096 mod 4096) 2048); lia. }
  destruct Hoff as [Ho1 Ho2].
  replace (u64 (u64 (d + sext 32 (i20 * 2 ^ 12)) + sext 12 i12)) with (u64 (d + off)).
  2:{ unfold u64, off. rewrite Z.add_mod_idemp_l by lia. f_equal. lia. }
  clearbody off. clear i20 i12 E0 E1 Hm Hi imm.
  assert (Hiff : Some (2 * (u64 (d + off) / 2)) = Some s <-> u64 (d + off) = s /\ s mod 2 = 0 \/ (u64 (d + off) = s + 1 /\ s mod 2 = 0)).
  { clear. generalize (u64 (d + off)). intros v. split.
    - intros E. assert (2 * (v / 2) = s) by congruence. lia.
    - intros [[H1 H2]|[H1 H2]]; f_equal; lia. }
  rewrite Hiff. rewrite reach_iff by (auto; pows; lia).
  (* an odd landing point is impossible when s is even: d + off = s mod 2 *)
  assert (Hpar : (d + off) mod 2 = s mod 2) by (pows; lia).
  assert (Hno : ~ (u64 (d + off) = s + 1 /\ s mod 2 = 0)).
  { intros [C1 C2]. assert (Hc : u64 (d + off) mod 2 = s mod 2).
    { rewrite <- Hpar. unfold u64. change (2 ^ 64) with (2 * 2 ^ 63).
      rewrite Z.rem_mul_r by lia. rewrite Z.add_mod, Z.mul_comm, Z.mod_mul, Z.add_0_r by lia.
      rewrite !Z.mod_mod by lia. reflexivity. }
    rewrite C1 in Hc. clear - Hc. lia. }
  assert (Hz : (sext 64 (s - d)) mod 2 ^ 32 = (s - d) mod 2 ^ 32).
  { apply mod64_mod32. apply (sext_mod 64). lia. }
  split.
  - intros [[H1 H2]|C]; [|contradiction]. split; [exact H2|]. rewrite <- H1. exact Ho2.
  - intros [H1 H2]. left. split; [|exact H1].
    rewrite <- Ho1 in Hz. clear - Hz H2 Ho2. revert Hz H2.
    generalize (sext 64 (s - d)). intros z Hz H2. pows. lia.
Qed.

(** LoongArch *)
Lemma la_code_word i : - 2 ^ 25 <= i < 2 ^ 25 ->
  let l16 := u32 (Z.land i 0xFFFF) in
  let h10 := u32 (Z.land (Z.shiftr i 16) 0x3FF) in
  Z.lor (Z.lor 0x50000000 (u32 (Z.shiftl l16 10))) h10 =
  0x14 * 2 ^ 26 + (i mod 2 ^ 16) * 2 ^ 10 + (i / 2 ^ 16) mod 2 ^ 10.
Proof.
  intros Hi l16 h10. unfold l16, h10.
  change 0xFFFF with (2 ^ 16 - 1). change 0x3FF with (2 ^ 10 - 1).
  rewrite !land_low, Z.shiftr_div_pow2, Z.shiftl_mul_pow2 by lia.
  unfold u32. rewrite (Z.mod_small (i mod 2 ^ 16)) by (pows; lia).
  rewrite (Z.mod_small (i mod 2 ^ 16 * 2 ^ 10)) by (pows; lia).
  rewrite (Z.mod_small ((i / 2 ^ 16) mod 2 ^ 10)) by (pows; lia).
  rewrite (lor_hi_lo 0x50000000 _ 26) by (try lia; pows; lia).
  rewrite (lor_hi_lo _ ((i / 2 ^ 16) mod 2 ^ 10) 10) by (try lia; pows; lia).
  pows. lia.
Qed.

Lemma la_code_some d s : addr_ok d -> addr_ok s ->
  forall c, la_code d s = Some c ->
  la_exec d c = Some (u64 (d + 4 * (sext 64 (s - d) / 4))).
Proof.
  intros Hd Hs c. unfold la_code.
  assert (Eb : s64 (u64 (s - d)) = sext 64 (s - d)).
  { unfold s64. apply sext_eq_mod; [lia|]. unfold u64. apply Z.mod_mod. lia. }
  rewrite Eb. rewrite (Z.shiftr_div_pow2 (sext 64 (s - d)) 2) by lia.
  change (2 ^ 2) with 4. set (i := sext 64 (s - d) / 4).
  destruct (_ || _) eqn:E; [discriminate|].
  intros H. apply some_inj in H. subst c.
  assert (Hi : - 2 ^ 25 <= i < 2 ^ 25) by (pows; lia).
  pose proof (la_code_word i Hi) as HW. cbv zeta in HW. rewrite HW. clear HW.
  set (w := 0x14 * 2 ^ 26 + (i mod 2 ^ 16) * 2 ^ 10 + (i / 2 ^ 16) mod 2 ^ 10).
  unfold la_exec. rewrite le_bytes_zlen, le_val_bytes.
  change (Z.of_nat 4 =? 4) with true. cbv iota zeta.
  change (256 ^ Z.of_nat 4) with (2 ^ 32).
  rewrite (Z.mod_small w) by (unfold w; pows; lia).
  replace (bits w 31 26) with 0x14
    by (unfold bits, w; change (31 - 26 + 1) with 6; change (2 ^ 6) with 64; pows; lia).
  change (0x14 =? 0x14) with true. cbv iota. f_equal. f_equal. f_equal. f_equal.
  rewrite <- (sext_small 26 i) at 1 by (try lia; exact Hi).
  apply sext_eq_mod; [lia|].
  unfold bits, w. change (9 - 0 + 1) with 10. change (25 - 10 + 1) with 16.
  change (2 ^ 0) with 1. pows. lia.
Qed.

Lemma la_code_none d s : addr_ok d -> addr_ok s ->
  (la_code d s = None <->
   sext 64 (s - d) / 4 < - 2 ^ 25 \/ 2 ^ 25 - 1 <= sext 64 (s - d) / 4).
Proof.
  intros Hd Hs. unfold la_code.
  assert (Eb : s64 (u64 (s - d)) = sext 64 (s - d)).
  { unfold s64. apply sext_eq_mod; [lia|]. unfold u64. apply Z.mod_mod. lia. }
  rewrite Eb. rewrite (Z.shiftr_div_pow2 (sext 64 (s - d)) 2) by lia.
  change (2 ^ 2) with 4. set (i := sext 64 (s - d) / 4).
  destruct (_ || _) eqn:E; split; intros; try congruence; pows; lia.
Qed.

Lemma la_jump d s : addr_ok d -> addr_ok s -> (s - d) mod 4 = 0 ->
  match la_code d s with
  | Some c => la_exec d c = Some s
  | None => ~ (- 2 ^ 27 <= sext 64 (s - d) < 2 ^ 27 - 4)
  end.
Proof.
  intros Hd Hs Hal. destruct (la_code d s) as [c|] eqn:E.
  - rewrite (la_code_some d s Hd Hs c E). f_equal. apply reach_iff; auto.
    + pose proof (sext_range 64 (s - d) ltac:(lia)). change (64 - 1) with 63 in *. pows. lia.
    + assert (Hmm : (sext 64 (s - d)) mod 4 = 0).
      { pose proof (sext_mod 64 (s - d) ltac:(lia)) as H. revert H.
        generalize (sext 64 (s - d)). intros z Hz. pows. lia. }
      lia.
  - apply la_code_none in E; auto. pows. lia.
Qed.

Lemma code_length_x86 d s : zlen (x86_code d s) = 5.
Proof. unfold x86_code. rewrite zlen_cons, le_bytes_zlen. reflexivity. Qed.
Lemma code_length_a64 d s : zlen (a64_code d s) = 4.
Proof. apply a64_word. Qed.
Lemma code_length_rv d s : zlen (rv_code d s) = 8.
Proof. unfold rv_code. rewrite zlen_app, !le_bytes_zlen. reflexivity. Qed.
Lemma code_length_la d s c : la_code d s = Some c -> zlen c = 4.
Proof. unfold la_code. destruct (_ || _); [discriminate|]. intros H; apply some_inj in H; subst c. apply le_bytes_zlen. Qed.
