(** Relocations: AArch64. *)
From Coq Require Import ZArith List Bool Lia ZifyBool ZifyNat.
From Verif Require Import Base BaseProofs BitTac JumpSpec JumpModel RelocModel RelocSpec RelocBits RelocProofs.
Import ListNotations.
Open Scope Z_scope.
Ltac Zify.zify_post_hook ::= Z.div_mod_to_equations.

Ltac pw :=
  change (2 ^ 64) with 18446744073709551616 in *;
  change (2 ^ 63) with 9223372036854775808 in *;
  change (2 ^ 33) with 8589934592 in *;
  change (2 ^ 32) with 4294967296 in *;
  change (2 ^ 31) with 2147483648 in *;
  change (2 ^ 27) with 134217728 in *;
  change (2 ^ 26) with 67108864 in *;
  change (2 ^ 25) with 33554432 in *;
  change (2 ^ 22) with 4194304 in *;
  change (2 ^ 21) with 2097152 in *;
  change (2 ^ 20) with 1048576 in *;
  change (2 ^ 19) with 524288 in *;
  change (2 ^ 18) with 262144 in *;
  change (2 ^ 17) with 131072 in *;
  change (2 ^ 16) with 65536 in *;
  change (2 ^ 15) with 32768 in *;
  change (2 ^ 14) with 16384 in *;
  change (2 ^ 12) with 4096 in *;
  change (2 ^ 11) with 2048 in *;
  change (2 ^ 10) with 1024 in *;
  change (2 ^ 9) with 512 in *;
  change (2 ^ 8) with 256 in *;
  change (2 ^ 7) with 128 in *;
  change (2 ^ 6) with 64 in *;
  change (2 ^ 5) with 32 in *;
  change (2 ^ 4) with 16 in *;
  change (2 ^ 3) with 8 in *;
  change (2 ^ 2) with 4 in *;
  change (2 ^ 1) with 2 in *;
  change (2 ^ 0) with 1 in *.

(** [bits v hi lo] with literal bounds as a division and a remainder. *)
Ltac unbits :=
  unfold bits in *;
  repeat match goal with
  | |- context [2 ^ ?e] =>
      lazymatch e with Zpos _ => fail | Z0 => fail | _ => idtac end;
      let e' := eval vm_compute in e in change (2 ^ e) with (2 ^ e')
  | H : context [2 ^ ?e] |- _ =>
      lazymatch e with Zpos _ => fail | Z0 => fail | _ => idtac end;
      let e' := eval vm_compute in e in change (2 ^ e) with (2 ^ e') in H
  end; pw.

Lemma shiftr_div x n : 0 <= n -> Z.shiftr x n = x / 2 ^ n.
Proof. intros. apply Z.shiftr_div_pow2. auto. Qed.

Lemma u64_of_diff d x : - 2 ^ 63 <= d < 2 ^ 63 -> sext 64 (u64 d) = d -> u64 (x + d) = u64 (x + sext 64 (u64 d)).
Proof. intros _ ->. reflexivity. Qed.

Lemma adrp_right X P w : addr_ok X -> addr_ok P ->
  - 2 ^ 32 <= pg12 X - pg12 P < 2 ^ 32 ->
  adrp_result P (set_adrp w (page_diff X P)) = pg12 X.
Proof.
  intros HX HP Hr. unfold adrp_result. rewrite set_adrp_hi, set_adrp_lo.
  set (v := page_diff X P).
  replace (4 * bits v 20 2 + bits v 1 0) with (v mod 2 ^ 21) by (unbits; lia).
  assert (Hv : sext 21 (v mod 2 ^ 21) = X / 4096 - P / 4096).
  { rewrite (sext_eq_mod 21 (v mod 2 ^ 21) (X / 4096 - P / 4096)); [|lia|].
    - apply sext_small; [lia|]. unfold pg12 in Hr. change (21 - 1) with 20. pw. lia.
    - rewrite Z.mod_mod by lia. unfold v, page_diff. rewrite !shiftr_div by lia.
      apply u64_mod. lia. }
  rewrite Hv. unfold pg12, addr_ok, u64 in *. pw. lia.
Qed.

Lemma imm12_right X w : imm12 (set_imm12 w X) = X mod 4096.
Proof. unfold imm12. rewrite set_imm12_f. unbits. lia. Qed.
Lemma imm12_s3_right X w : X mod 8 = 0 -> imm12 (set_imm12_s3 w X) * 8 = X mod 4096.
Proof. intros H. unfold imm12. rewrite set_imm12_s3_f. unbits. lia. Qed.

Lemma b26_right X P v w' : addr_ok X -> addr_ok P ->
  bits w' 25 0 = v mod 2 ^ 26 -> v mod 2 ^ 26 = ((X - P) / 4) mod 2 ^ 26 ->
  (X - P) mod 4 = 0 -> - 2 ^ 27 <= X - P < 2 ^ 27 -> b26_target P w' = X.
Proof.
  intros HX HP Hb Hv Hm Hr. unfold b26_target. rewrite Hb, Hv.
  rewrite (sext_eq_mod 26 _ ((X - P) / 4)) by (try lia; apply Z.mod_mod; lia).
  rewrite sext_small by (try lia; change (26 - 1) with 25; pw; lia).
  unfold u64, addr_ok in *. pw. lia.
Qed.

Lemma update4_has f buf loc b (Q : Z -> Z -> Prop) :
  (forall w, 0 <= w < 2 ^ 32 -> 0 <= f w < 2 ^ 32 /\ Q w (f w)) -> bytes_ok buf ->
  update 4 buf loc f = Next b ->
  bytes_ok b /\ only_at buf b loc 4 /\
  exists w w', has buf loc 4 w /\ has b loc 4 w' /\ Q w w'.
Proof.
  intros Hf Hb H. destruct (update_inv _ _ _ _ _ H) as (w & H1 & H2 & H3 & H4).
  change (Z.of_nat 4) with 4 in *. pose proof (has_range _ _ _ _ Hb H1) as Hw.
  change (8 * 4) with 32 in *. destruct (Hf w Hw) as [R HQ].
  rewrite Z.mod_small in H3 by auto.
  split; [auto|]. split; [auto|]. exists w, (f w). auto.
Qed.

Lemma a64_apply_inv r s buf loc loc2 X b :
  addr_ok X -> addr_ok loc2 -> bytes_ok buf ->
  a64_apply r s buf loc loc2 X = Next b ->
  a64_known (r_type r) = true /\ bytes_ok b /\
  only_at buf b loc (a64_width (r_type r)) /\
  (0 < a64_width (r_type r) -> exists w w',
     has buf loc (a64_width (r_type r)) w /\ has b loc (a64_width (r_type r)) w' /\
     a64_good s (r_type r) X loc2 w w').
Proof.
  intros HX HP Hb. unfold a64_apply. generalize (r_type r). intros ty.
  unfold R_AARCH64_NONE, R_AARCH64_TLSIE_LD64_GOTTPREL_LO12_NC,
    R_AARCH64_TLSIE_ADR_GOTTPREL_PAGE21, R_AARCH64_ADR_PREL_PG_HI21, R_AARCH64_ADR_GOT_PAGE,
    R_AARCH64_ABS64, R_AARCH64_ADD_ABS_LO12_NC, R_AARCH64_CALL26, R_AARCH64_LD64_GOT_LO12_NC,
    R_AARCH64_JUMP26, R_AARCH64_LDST32_ABS_LO12_NC, R_AARCH64_LDST64_ABS_LO12_NC,
    R_AARCH64_LDST8_ABS_LO12_NC. cbv zeta.
  destruct ((ty =? 0) || (ty =? 542)) eqn:E0.
  { intros H. injection H as <-. assert (D : ty = 0 \/ ty = 542) by (clear - E0; lia).
    destruct D as [D|D]; rewrite D; repeat split; auto; cbn; lia. }
  destruct ((ty =? 541) || (ty =? 275) || (ty =? 311)) eqn:E1.
  { intros H.
    apply (update4_has _ _ _ _ (fun w w' => keeps adrp_mask w w' /\
      (- 2 ^ 32 <= pg12 X - pg12 loc2 < 2 ^ 32 -> adrp_result loc2 w' = pg12 X))) in H; auto.
    2:{ intros w Hw. split; [apply set_adrp_range|]. split; [now apply set_adrp_keeps|].
        intros. now apply adrp_right. }
    assert (D : ty = 541 \/ ty = 275 \/ ty = 311) by (clear - E1; lia).
    destruct H as (B & O & w & w' & H1 & H2 & H3).
    destruct D as [D|[D|D]]; rewrite D; (split; [reflexivity|]); (split; [exact B|]);
      (split; [exact O|]); intros _; exists w, w'; auto. }
  destruct (Z.eqb_spec ty 257) as [Ty|N1].
  { rewrite Ty. intros H. apply store_inv in H. destruct H as (O & Hh & B).
    split; [reflexivity|]. split; [auto|]. split; [exact O|]. intros _.
    change (a64_width 257) with 8. change (Z.of_nat 8) with 8 in Hh. change (8 * 8) with 64 in Hh.
    rewrite Z.mod_small in Hh by exact HX.
    destruct (slice buf loc 8) as [bs|] eqn:Es.
    - exists (le_val bs), X. split; [exists bs; auto|]. split; [exact Hh|]. reflexivity.
    - exfalso. destruct Hh as (bs & Hs & _). destruct O as [OL _].
      unfold slice, zlen in *. rewrite OL in Hs. rewrite Es in Hs || (destruct (_ && _); discriminate). }
  destruct (Z.eqb_spec ty 277) as [Ty|N2].
  { rewrite Ty. intros H. apply (update4_has _ _ _ _ (a64_good s 277 X loc2)) in H; auto.
    2:{ intros w Hw. split; [apply set_imm12_range|]. split; [now apply set_imm12_keeps|apply imm12_right]. }
    destruct H as (B & O & w & w' & H1 & H2 & H3).
    split; [reflexivity|]. split; [auto|]. split; [exact O|]. intros _. exists w, w'. auto. }
  destruct (Z.eqb_spec ty 283) as [Ty|N3].
  { rewrite Ty. intros H. apply (update4_has _ _ _ _ (a64_good s 283 X loc2)) in H; auto.
    2:{ intros w Hw. split; [apply set_call26_range|]. split; [now apply set_call26_keeps|].
        apply (b26_right X loc2 (u64 (X - loc2) / 4)); auto.
        - rewrite set_call26_f. unbits. lia.
        - unfold u64. pw. lia. }
    destruct H as (B & O & w & w' & H1 & H2 & H3).
    split; [reflexivity|]. split; [auto|]. split; [exact O|]. intros _. exists w, w'. auto. }
  destruct (Z.eqb_spec ty 312) as [Ty|N4].
  { rewrite Ty. intros H.
    assert (H' : bytes_ok b /\ only_at buf b loc 4 /\
      exists w w', has buf loc 4 w /\ has b loc 4 w' /\ a64_got_right s X w w').
    { unfold a64_got_right. unfold STT_OBJECT, SHN_UNDEF, STB_GLOBAL in H.
      destruct ((y_type s =? 1) && (y_shndx s =? 0) && (y_bind s =? 1)).
      - refine (update4_has _ _ _ _ _ _ Hb H).
        intros w Hw. split; [apply set_imm12_s3_range|].
        split; [now apply set_imm12_s3_keeps|]. intros Hm.
        rewrite imm12_s3_right by (unfold u64; clear - Hm HX; pw; lia).
        unfold u64. clear. pw. lia.
      - refine (update4_has _ _ _ _ _ _ Hb H).
        intros w Hw. split; [apply set_got_add_range|].
        split; [now apply set_got_add_keeps|]. split; [apply set_got_add_op|].
        unfold imm12. rewrite set_got_add_f. unbits. lia. }
    destruct H' as (B & O & w & w' & H1 & H2 & H3).
    split; [reflexivity|]. split; [auto|]. split; [exact O|]. intros _. exists w, w'. auto. }
  destruct (Z.eqb_spec ty 282) as [Ty|N5].
  { rewrite Ty. intros H. apply (update4_has _ _ _ _ (a64_good s 282 X loc2)) in H; auto.
    2:{ intros w Hw. split; [apply set_jump26_range|]. split; [now apply set_jump26_keeps|].
        intros Hm. apply (b26_right X loc2 (u64 (Z.shiftr X 2 - Z.shiftr loc2 2))); auto.
        - rewrite set_jump26_f. unbits. lia.
        - rewrite !shiftr_div by lia. rewrite u64_mod by lia. f_equal. change (2 ^ 2) with 4. lia. }
    destruct H as (B & O & w & w' & H1 & H2 & H3).
    split; [reflexivity|]. split; [auto|]. split; [exact O|]. intros _. exists w, w'. auto. }
  destruct ((ty =? 285) || (ty =? 286) || (ty =? 278)) eqn:E6; [|discriminate].
  intros H. apply (update4_has _ _ _ _ (a64_good s 286 X loc2)) in H; auto.
  2:{ intros w Hw. split; [apply set_imm12_s3_range|]. split; [now apply set_imm12_s3_keeps|].
      apply imm12_s3_right. }
  assert (D : ty = 285 \/ ty = 286 \/ ty = 278) by (clear - E6; lia).
  destruct H as (B & O & w & w' & H1 & H2 & H3).
  destruct D as [D|[D|D]]; rewrite D; (split; [reflexivity|]); (split; [exact B|]);
      (split; [exact O|]); intros _; exists w, w'; (split; [exact H1|]; split; [exact H2|]).
  - exact (proj1 H3).
  - exact H3.
  - exact (proj1 H3).
Qed.

Lemma a64_X_ok c s r : sym_ok s -> addr_ok (a64_X c s r).
Proof.
  intros [H1 H2]. unfold a64_X.
  repeat match goal with |- context [if ?b then _ else _] => destruct b end; auto; apply u64_range.
Qed.

Lemma a64_reloc_inv c syms prev r buf b s :
  bytes_ok buf -> a64_reloc c syms prev r buf = Next b ->
  nth_error syms (Z.to_nat (r_sym r)) = Some s -> sym_ok s ->
  r_offset r < t_size c /\ a64_known (r_type r) = true /\ bytes_ok b /\
  only_at buf b (locn c r) (a64_width (r_type r)) /\
  (0 < a64_width (r_type r) -> exists w w',
     has buf (locn c r) (a64_width (r_type r)) w /\
     has b (locn c r) (a64_width (r_type r)) w' /\
     a64_good s (r_type r) (a64_X c s r) (u64 (place c r)) w w').
Proof.
  intros Hb. unfold a64_reloc. destruct (Z.leb_spec (t_size c) (r_offset r)); [discriminate|].
  intros H0 Es Hs. rewrite Es in H0. cbv zeta in H0. split; [auto|].
  pose proof (a64_X_ok c s r Hs) as HX. unfold a64_X in HX. unfold a64_X.
  change (undefinedb s) with (is_undef_symbol s) in *. change 6 with STT_TLS in *.
  assert (HP : addr_ok (u64 (t_addr c + r_offset r))) by apply u64_range.
  destruct (y_type s =? STT_TLS).
  - destruct (y_bind s =? STB_LOCAL); [discriminate|].
    apply a64_apply_inv in H0; auto.
  - apply a64_apply_inv in H0; auto.
Qed.

Lemma a64_stop c syms prev r buf b : a64_reloc c syms prev r buf = Stop b -> local_tls syms r.
Proof.
  unfold a64_reloc. destruct (_ <=? _); [discriminate|].
  destruct (nth_error _ _) as [s|] eqn:Es; [|discriminate]. cbv zeta.
  assert (Ha : forall v, a64_apply r s buf (t_off c + r_offset r) (u64 (t_addr c + r_offset r)) v <> Stop b).
  { intros v. unfold a64_apply. cbv zeta.
    repeat match goal with |- context [if ?x then _ else _] => destruct x end;
      try discriminate; first [apply store_stop | apply update_stop]. }
  destruct (Z.eqb_spec (y_type s) STT_TLS).
  - destruct (Z.eqb_spec (y_bind s) STB_LOCAL).
    + intros _. exists s. auto.
    + intros H. exfalso. eapply Ha; eauto.
  - intros H. exfalso. eapply Ha; eauto.
Qed.

Lemma a64_section c syms rs buf buf' :
  apply_loop (a64_reloc c syms) [] rs buf = ROk buf' -> bytes_ok buf ->
  Forall sym_ok syms -> (forall r, In r rs -> ~ local_tls syms r) ->
  disjoint_fields a64_width c rs ->
  length buf' = length buf /\
  (forall i, 0 <= i ->
     (forall r, In r rs -> ~ in_range i (locn c r) (a64_width (r_type r))) ->
     nth_error buf' (Z.to_nat i) = nth_error buf (Z.to_nat i)) /\
  (forall r s, In r rs -> nth_error syms (Z.to_nat (r_sym r)) = Some s ->
     0 < a64_width (r_type r) -> exists w w',
     has buf (locn c r) (a64_width (r_type r)) w /\
     has buf' (locn c r) (a64_width (r_type r)) w' /\
     a64_good s (r_type r) (a64_X c s r) (u64 (place c r)) w w').
Proof.
  intros H Hb Hsy Hl Hd.
  destruct (loop_fields (a64_reloc c syms) (locn c) (fun r => a64_width (r_type r))
    (fun r o o' => forall s, nth_error syms (Z.to_nat (r_sym r)) = Some s ->
       0 < a64_width (r_type r) -> exists bs bs', o = Some bs /\ o' = Some bs' /\
       a64_good s (r_type r) (a64_X c s r) (u64 (place c r)) (le_val bs) (le_val bs'))
    rs [] buf buf') as (L & K & Q & _); auto.
  - intros prev r a b Hin Ha E.
    destruct (nth_error syms (Z.to_nat (r_sym r))) as [s|] eqn:Es.
    + rewrite Forall_forall in Hsy.
      destruct (a64_reloc_inv _ _ _ _ _ _ _ Ha E Es) as (_ & _ & B & O & Hg).
      { apply Hsy. eapply nth_error_In; eauto. }
      split; [auto|]. split; [auto|]. intros s' Es' Hw. injection Es' as <-.
      destruct (Hg Hw) as (w & w' & (bs & H1 & <-) & (bs' & H2 & <-) & H3).
      exists bs, bs'. auto.
    + exfalso. unfold a64_reloc in E. rewrite Es in E. destruct (_ <=? _); discriminate.
  - intros prev r a b Hin E. apply a64_stop in E. exact (Hl r Hin E).
  - split; [auto|]. split; [auto|]. intros r s Hin Es Hw.
    destruct (Q r Hin s Es Hw) as (bs & bs' & H1 & H2 & H3).
    exists (le_val bs), (le_val bs'). split; [exists bs; auto|]. split; [exists bs'; auto|]. exact H3.
Qed.

Lemma a64_unknown_fails c syms prev r buf s :
  nth_error syms (Z.to_nat (r_sym r)) = Some s -> ~ local_tls syms r ->
  t_size c <= r_offset r \/ a64_known (r_type r) = false ->
  a64_reloc c syms prev r buf = Fail.
Proof.
  intros Es Hl H. unfold a64_reloc. destruct (Z.leb_spec (t_size c) (r_offset r)); [reflexivity|].
  destruct H as [H|H]; [lia|]. rewrite Es. cbv zeta.
  assert (Ha : forall v, a64_apply r s buf (t_off c + r_offset r) (u64 (t_addr c + r_offset r)) v = Fail).
  { intros v. unfold a64_apply. cbv zeta.
    unfold a64_known in H. cbn [existsb] in H.
    rewrite !orb_false_iff in H. decompose [and] H.
    unfold R_AARCH64_NONE, R_AARCH64_TLSIE_LD64_GOTTPREL_LO12_NC,
      R_AARCH64_TLSIE_ADR_GOTTPREL_PAGE21, R_AARCH64_ADR_PREL_PG_HI21, R_AARCH64_ADR_GOT_PAGE,
      R_AARCH64_ABS64, R_AARCH64_ADD_ABS_LO12_NC, R_AARCH64_CALL26, R_AARCH64_LD64_GOT_LO12_NC,
      R_AARCH64_JUMP26, R_AARCH64_LDST32_ABS_LO12_NC, R_AARCH64_LDST64_ABS_LO12_NC,
      R_AARCH64_LDST8_ABS_LO12_NC.
    repeat match goal with E : (_ =? _) = false |- _ => rewrite E; clear E end. reflexivity. }
  rewrite !Ha. destruct (Z.eqb_spec (y_type s) STT_TLS); [|reflexivity].
  destruct (Z.eqb_spec (y_bind s) STB_LOCAL); [|reflexivity].
  exfalso. apply Hl. exists s. auto.
Qed.
