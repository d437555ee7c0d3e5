(** Relocations: stores, the loop, x86-64. *)
From Coq Require Import ZArith List Bool Lia ZifyBool ZifyNat.
From Verif Require Import Base BaseProofs BitTac JumpSpec JumpModel RelocModel RelocSpec RelocBits StorageProofs.
Import ListNotations.
Open Scope Z_scope.
Ltac Zify.zify_post_hook ::= Z.div_mod_to_equations.

(** ** Buffers *)
Lemma zlen_eq {A} (l l' : list A) : zlen l = zlen l' -> length l = length l'.
Proof. unfold zlen. lia. Qed.

Lemma only_at_refl buf off n : only_at buf buf off n.
Proof. split; auto. Qed.
Lemma only_at_trans a b c off n : only_at a b off n -> only_at b c off n -> only_at a c off n.
Proof.
  intros [L1 H1] [L2 H2]. split; [congruence|]. intros i Hi Hn. rewrite H2, H1; auto.
Qed.
Lemma only_at_mono a b off n off' n' :
  off' <= off -> off + n <= off' + n' -> only_at a b off n -> only_at a b off' n'.
Proof.
  intros H1 H2 [L H]. split; [auto|]. intros i Hi Hn. apply H; [auto|]. unfold in_range in *. lia.
Qed.

Lemma splice_only buf off new b : splice buf off new = Some b -> only_at buf b off (zlen new).
Proof.
  intros H. pose proof (splice_length _ _ _ _ H) as HL. split; [now apply zlen_eq|].
  unfold splice in H. destruct ((0 <=? off) && (off + zlen new <=? zlen buf)) eqn:E; [|discriminate].
  apply some_inj in H. subst b. intros i Hi Hn. unfold in_range in Hn.
  assert (0 <= off /\ off + zlen new <= zlen buf) as [E1 E2] by lia.
  unfold zlen in *.
  assert (Lf : length (firstn (Z.to_nat off) buf) = Z.to_nat off)
    by (rewrite firstn_length; lia).
  destruct (Z.lt_ge_cases i off) as [C|C].
  - rewrite nth_error_app1 by (rewrite Lf; lia).
    rewrite <- (firstn_skipn (Z.to_nat off) buf) at 2.
    rewrite nth_error_app1 by (rewrite Lf; lia). reflexivity.
  - rewrite nth_error_app2 by (rewrite Lf; lia).
    rewrite nth_error_app2 by (rewrite Lf; lia).
    rewrite Lf.
    rewrite <- (firstn_skipn (Z.to_nat off + length new) buf) at 2.
    rewrite nth_error_app2 by (rewrite firstn_length; lia).
    f_equal. rewrite firstn_length. lia.
Qed.

Lemma splice_bytes buf off new b : bytes_ok buf -> bytes_ok new ->
  splice buf off new = Some b -> bytes_ok b.
Proof.
  unfold splice. intros Hb Hn. destruct (_ && _); [|discriminate]. intros H.
  apply some_inj in H. subst b. unfold bytes_ok in *. rewrite Forall_forall in *.
  intros x Hx. apply in_app_or in Hx. destruct Hx as [Hx|Hx]; [apply Hb; eapply in_firstn; eauto|].
  apply in_app_or in Hx. destruct Hx as [Hx|Hx]; [auto|apply Hb; eapply in_skipn; eauto].
Qed.

Lemma pow256 n : 256 ^ Z.of_nat n = 2 ^ (8 * Z.of_nat n).
Proof. change 256 with (2 ^ 8). rewrite <- Z.pow_mul_r by lia. reflexivity. Qed.

Lemma store_inv n buf loc v b : store n buf loc v = Next b ->
  only_at buf b loc (Z.of_nat n) /\ has b loc (Z.of_nat n) (v mod 2 ^ (8 * Z.of_nat n)) /\
  (bytes_ok buf -> bytes_ok b).
Proof.
  unfold store. destruct (splice buf loc (le_bytes n v)) as [b'|] eqn:E; [|discriminate].
  intros H. injection H as ->. split; [|split].
  - rewrite <- (le_bytes_zlen n v). now apply splice_only.
  - exists (le_bytes n v). split.
    + rewrite <- (le_bytes_zlen n v). apply (slice_splice_same _ _ _ _ E).
    + rewrite le_val_bytes, pow256. reflexivity.
  - intros Hb. exact (splice_bytes _ _ _ _ Hb (le_bytes_ok n v) E).
Qed.

Lemma store_stop n buf loc v b : store n buf loc v <> Stop b.
Proof. unfold store. destruct (splice _ _ _); discriminate. Qed.
Lemma store_fail n buf loc v : store n buf loc v <> Fail.
Proof. unfold store. destruct (splice _ _ _); discriminate. Qed.

Lemma has_range buf off n v : bytes_ok buf -> has buf off n v -> 0 <= v < 2 ^ (8 * n).
Proof.
  intros Hb (bs & Hs & <-). pose proof (slice_bytes _ _ _ _ Hb Hs) as Hbs.
  pose proof (slice_length _ _ _ _ Hs) as HL. pose proof (le_val_range _ Hbs) as R.
  rewrite HL in R. pose proof (zlen_nonneg bs).
  change 256 with (2 ^ 8) in R. rewrite <- Z.pow_mul_r in R by lia. exact R.
Qed.
Lemma has_fun buf off n v v' : has buf off n v -> has buf off n v' -> v = v'.
Proof. intros (bs & H & <-) (bs' & H' & <-). congruence. Qed.

Lemma update_inv n buf loc f b : update n buf loc f = Next b ->
  exists w, has buf loc (Z.of_nat n) w /\
    only_at buf b loc (Z.of_nat n) /\
    has b loc (Z.of_nat n) (f w mod 2 ^ (8 * Z.of_nat n)) /\
    (bytes_ok buf -> bytes_ok b).
Proof.
  unfold update, fetch. destruct (slice buf loc (Z.of_nat n)) as [bs|] eqn:E; [|discriminate].
  intros H. exists (le_val bs). split; [exists bs; auto|]. now apply store_inv.
Qed.
Lemma update_stop n buf loc f b : update n buf loc f <> Stop b.
Proof. unfold update, fetch. destruct (slice _ _ _); [apply store_stop|discriminate]. Qed.
Lemma update_fail n buf loc f : update n buf loc f <> Fail.
Proof. unfold update, fetch. destruct (slice _ _ _); [apply store_fail|discriminate]. Qed.

(** [update] of a 32-bit word by a function with 32-bit results *)
Lemma update4 buf loc f b :
  (forall w, 0 <= f w < 2 ^ 32) -> bytes_ok buf ->
  update 4 buf loc f = Next b ->
  exists w, 0 <= w < 2 ^ 32 /\ has buf loc 4 w /\ only_at buf b loc 4 /\ has b loc 4 (f w).
Proof.
  intros Hf Hb H. destruct (update_inv _ _ _ _ _ H) as (w & H1 & H2 & H3 & _).
  change (Z.of_nat 4) with 4 in *. exists w.
  pose proof (has_range _ _ _ _ Hb H1) as R. change (8 * 4) with 32 in *.
  rewrite Z.mod_small in H3 by auto. auto.
Qed.
Lemma update2 buf loc f b :
  (forall w, 0 <= f w < 2 ^ 16) -> bytes_ok buf ->
  update 2 buf loc f = Next b ->
  exists w, 0 <= w < 2 ^ 16 /\ has buf loc 2 w /\ only_at buf b loc 2 /\ has b loc 2 (f w).
Proof.
  intros Hf Hb H. destruct (update_inv _ _ _ _ _ H) as (w & H1 & H2 & H3 & _).
  change (Z.of_nat 2) with 2 in *. exists w.
  pose proof (has_range _ _ _ _ Hb H1) as R. change (8 * 2) with 16 in *.
  rewrite Z.mod_small in H3 by auto. auto.
Qed.


Lemma nth_error_ext_eq {A} (l l' : list A) :
  (forall i, nth_error l i = nth_error l' i) -> l = l'.
Proof.
  revert l'. induction l as [|x l IH]; intros [|y l'] H; auto.
  - specialize (H 0%nat). discriminate.
  - specialize (H 0%nat). discriminate.
  - pose proof (H 0%nat) as H0. cbn in H0. injection H0 as ->. f_equal.
    apply IH. intros i. exact (H (S i)).
Qed.
Lemma nth_error_firstn_lt {A} (l : list A) k i : (i < k)%nat ->
  nth_error (firstn k l) i = nth_error l i.
Proof.
  revert l i. induction k as [|k IH]; intros l i H; [lia|].
  destruct l as [|x l]; [reflexivity|]. destruct i as [|i]; [reflexivity|]. cbn. apply IH. lia.
Qed.
Lemma nth_error_skipn_add {A} (l : list A) k i : nth_error (skipn k l) i = nth_error l (k + i).
Proof.
  revert l. induction k as [|k IH]; intros l; [reflexivity|].
  destruct l as [|x l]; [destruct i; reflexivity|]. cbn. apply IH.
Qed.

(** A change elsewhere leaves a field alone. *)
Lemma only_at_slice a b off n off' n' : only_at a b off n ->
  off' + n' <= off \/ off + n <= off' -> slice b off' n' = slice a off' n'.
Proof.
  intros [L H] D. unfold slice, zlen. rewrite L.
  destruct ((0 <=? off') && (0 <=? n') && (off' + n' <=? Z.of_nat (length a))) eqn:E; [|reflexivity].
  f_equal. apply nth_error_ext_eq. intros i.
  destruct (Nat.lt_ge_cases i (Z.to_nat n')) as [C|C].
  - rewrite !nth_error_firstn_lt, !nth_error_skipn_add by auto.
    replace (Z.to_nat off' + i)%nat with (Z.to_nat (off' + Z.of_nat i)) by lia.
    apply H; [lia|]. unfold in_range. lia.
  - rewrite !(proj2 (nth_error_None _ _)); auto; rewrite firstn_length; lia.
Qed.
Lemma only_at_has a b off n off' n' v : only_at a b off n ->
  off' + n' <= off \/ off + n <= off' -> has a off' n' v -> has b off' n' v.
Proof.
  intros O D (bs & H & E). exists bs. split; [|auto]. rewrite <- H. eapply only_at_slice; eauto.
Qed.

(** ** The loop *)
Section Loop.
Variable A : Type.
Variable one : list rela -> rela -> A -> step A.

Lemma apply_loop_inv (P : A -> Prop) prev rs a a' :
  (forall prev r a b, In r rs -> P a -> one prev r a = Next b \/ one prev r a = Stop b -> P b) ->
  P a -> apply_loop one prev rs a = ROk a' -> P a'.
Proof.
  revert prev a. induction rs as [|r rs IH]; intros prev a Hstep Ha; cbn.
  - intros H. injection H as <-. auto.
  - destruct (one prev r a) as [b|b| |] eqn:E; try discriminate.
    + apply IH; [intros; eapply Hstep; eauto; now right|].
      eapply Hstep; eauto. now left.
    + intros H. injection H as <-. eapply Hstep; eauto. now left.
Qed.
End Loop.

(** The loop over relocations with disjoint fields, each of which establishes
    [R] between the old and the new content of its own field. *)
Section Fields.
Variable one : list rela -> rela -> list Z -> step (list Z).
Variables f w : rela -> Z.
Variable R : rela -> option (list Z) -> option (list Z) -> Prop.

Lemma loop_fields rs : forall prev buf buf',
  (forall prev r a b, In r rs -> bytes_ok a -> one prev r a = Next b ->
     bytes_ok b /\ only_at a b (f r) (w r) /\
     R r (slice a (f r) (w r)) (slice b (f r) (w r))) ->
  (forall prev r a b, In r rs -> one prev r a <> Stop b) ->
  ForallOrdPairs (fun r1 r2 => f r1 + w r1 <= f r2 \/ f r2 + w r2 <= f r1) rs ->
  bytes_ok buf -> apply_loop one prev rs buf = ROk buf' ->
  length buf' = length buf /\
  (forall i, 0 <= i -> (forall r, In r rs -> ~ in_range i (f r) (w r)) ->
     nth_error buf' (Z.to_nat i) = nth_error buf (Z.to_nat i)) /\
  (forall r, In r rs -> R r (slice buf (f r) (w r)) (slice buf' (f r) (w r))) /\
  (forall off n, (forall r, In r rs -> off + n <= f r \/ f r + w r <= off) ->
     slice buf' off n = slice buf off n).
Proof.
  induction rs as [|r rs IH]; intros prev buf buf' Hone Hstop Hd Hb; cbn.
  - intros H. injection H as <-. repeat split; auto. intros r [].
  - destruct (one prev r buf) as [b|b| |] eqn:E; try discriminate.
    2:{ exfalso. eapply Hstop; [now left|eauto]. }
    intros H. inversion Hd as [|? ? Hr Hrs]; subst.
    destruct (Hone prev r buf b (or_introl eq_refl) Hb E) as (Hbb & O & HR).
    destruct (IH (r :: prev) b buf') as (L & K & Q & S); auto.
    { intros; eapply Hone; eauto. now right. }
    { intros; eapply Hstop; eauto. now right. }
    rewrite Forall_forall in Hr. destruct O as [OL OK].
    split; [congruence|]. split; [|split].
    + intros i Hi Hn. rewrite K by (auto; intros; apply Hn; now right).
      apply OK; [auto|]. apply Hn. now left.
    + intros r' [<-|Hin].
      * rewrite (S (f r) (w r)) by (intros r' Hr'; destruct (Hr r' Hr'); lia). exact HR.
      * rewrite <- (only_at_slice buf b (f r) (w r)) by
          (try (split; [exact OL|exact OK]); destruct (Hr r' Hin); lia). auto.
    + intros off n Hn. rewrite S by (intros; apply Hn; now right).
      apply (only_at_slice _ _ (f r) (w r)); [split; auto|]. apply Hn. now left.
Qed.
End Fields.

(** ** x86-64 *)
Lemma in_existsb x l : existsb (Z.eqb x) l = true <-> In x l.
Proof.
  rewrite existsb_exists. split.
  - intros (y & Hy & E). apply Z.eqb_eq in E. now subst.
  - intros H. exists x. split; [auto|apply Z.eqb_refl].
Qed.

(** The value stored, and the shape of the step. *)
Definition x86_value (c : rctx) (s : sym) (r : rela) : Z :=
  let P := t_addr c + r_offset r in
  let undef := is_undef_symbol s in
  let X := if t_info c && undef then y_size s else y_value s + r_addend r in
  let ty := r_type r in
  if (ty =? 1) || (ty =? 10) || (ty =? 11) then X
  else if ty =? 2 then X - P
  else if undef then X + 8 - P
  else if y_type s =? STT_TLS then r_addend r + t_load c - 4 - P
  else X - P.

Lemma mod_mod_pow x a b : 0 <= a <= b -> (x mod 2 ^ b) mod 2 ^ a = x mod 2 ^ a.
Proof.
  intros H. symmetry. apply Znumtheory.Zmod_div_mod; try (apply Z.pow_pos_nonneg; lia).
  exists (2 ^ (b - a)). rewrite <- Z.pow_add_r by lia. f_equal. lia.
Qed.
Lemma u64_mod x n : 0 <= n <= 64 -> (u64 x) mod 2 ^ n = x mod 2 ^ n.
Proof. intros. unfold u64. apply mod_mod_pow. lia. Qed.

(** congruence modulo 2^n, to compare values stored with values required *)
Lemma mod_sub_l x y z n : x mod 2 ^ n = y mod 2 ^ n -> (x - z) mod 2 ^ n = (y - z) mod 2 ^ n.
Proof. intros H. rewrite Zminus_mod, H, <- Zminus_mod. reflexivity. Qed.
Lemma mod_add_l x y z n : x mod 2 ^ n = y mod 2 ^ n -> (x + z) mod 2 ^ n = (y + z) mod 2 ^ n.
Proof. intros H. rewrite Zplus_mod, H, <- Zplus_mod. reflexivity. Qed.
Lemma mod_sub_r x y z n : y mod 2 ^ n = z mod 2 ^ n -> (x - y) mod 2 ^ n = (x - z) mod 2 ^ n.
Proof. intros H. rewrite Zminus_mod, H, <- Zminus_mod. reflexivity. Qed.
Lemma u64_sub_mod x x' p n : 0 <= n <= 64 -> x mod 2 ^ n = x' mod 2 ^ n ->
  (u64 (x - u64 p)) mod 2 ^ n = (x' - p) mod 2 ^ n.
Proof.
  intros Hn H. rewrite u64_mod by lia.
  rewrite (mod_sub_r _ _ p) by (apply u64_mod; lia). now apply mod_sub_l.
Qed.
Lemma u64_add_mod x x' k n : 0 <= n <= 64 -> x mod 2 ^ n = x' mod 2 ^ n ->
  (u64 (x + k)) mod 2 ^ n = (x' + k) mod 2 ^ n.
Proof. intros Hn H. rewrite u64_mod by lia. now apply mod_add_l. Qed.

Lemma x86_reloc_inv c syms prev r buf b :
  x86_reloc c syms prev r buf = Next b ->
  exists s, nth_error syms (Z.to_nat (r_sym r)) = Some s /\
    r_offset r < t_size c /\ x86_known (r_type r) = true /\
    only_at buf b (t_off c + r_offset r) (x86_width (r_type r)) /\
    (0 < x86_width (r_type r) ->
     has b (t_off c + r_offset r) (x86_width (r_type r))
         (x86_value c s r mod 2 ^ (8 * x86_width (r_type r)))) /\
    (bytes_ok buf -> bytes_ok b).
Proof.
  unfold x86_reloc. destruct (Z.leb_spec (t_size c) (r_offset r)); [discriminate|].
  destruct (nth_error syms (Z.to_nat (r_sym r))) as [s|] eqn:Es; [|discriminate].
  intros H0. cbv zeta in H0. exists s. split; [auto|]. split; [auto|].
  set (X := if t_info c && is_undef_symbol s then y_size s else y_value s + r_addend r) in *.
  set (val := if t_info c && is_undef_symbol s then y_size s else u64 (y_value s + r_addend r)) in *.
  assert (HX : forall n, 0 <= n <= 64 -> val mod 2 ^ n = X mod 2 ^ n).
  { intros n Hn. unfold val, X. destruct (_ && _); [auto|apply u64_mod; auto]. }
  unfold x86_value. cbv zeta. fold X. clearbody val X.
  generalize dependent (r_type r). intros ty H0.
  unfold R_X86_64_NONE, R_X86_64_64, R_X86_64_PC32, R_X86_64_GOTPCREL, R_X86_64_32,
    R_X86_64_32S, R_X86_64_TPOFF64, R_X86_64_GOTTPOFF, R_X86_64_TPOFF32,
    R_X86_64_GOTPCRELX, R_X86_64_REX_GOTPCRELX in H0.
  destruct (Z.eqb_spec ty 0) as [Ty|N0].
  { subst ty. injection H0 as <-. split; [reflexivity|]. split; [apply only_at_refl|split; [cbn; lia|auto]]. }
  destruct (Z.eqb_spec ty 1) as [Ty|N1].
  { subst ty. apply store_inv in H0. destruct H0 as (O & Hs & Hok). split; [reflexivity|]. split; [exact O|]. split; [|exact Hok].
    intros _. cbn [Z.eqb orb]. change (x86_width 1) with (Z.of_nat 8).
    change (Z.pos 1 =? 1) with true. cbn [orb]. rewrite <- HX by (cbn; lia). exact Hs. }
  destruct (Z.eqb_spec ty 10) as [Ty|N10].
  { subst ty. apply store_inv in H0. destruct H0 as (O & Hs & Hok). split; [reflexivity|]. split; [exact O|]. split; [|exact Hok].
    intros _. change (x86_width 10) with (Z.of_nat 4).
    change ((10 =? 1) || (10 =? 10) || (10 =? 11)) with true. cbv iota.
    rewrite <- HX by (cbn; lia). exact Hs. }
  destruct (Z.eqb_spec ty 11) as [Ty|N11].
  { subst ty. apply store_inv in H0. destruct H0 as (O & Hs & Hok). split; [reflexivity|]. split; [exact O|]. split; [|exact Hok].
    intros _. change (x86_width 11) with (Z.of_nat 4).
    change ((11 =? 1) || (11 =? 10) || (11 =? 11)) with true. cbv iota.
    rewrite <- HX by (cbn; lia). exact Hs. }
  cbn [orb].
  destruct ((ty =? 22) || (ty =? 9) || (ty =? 42) || (ty =? 41)) eqn:Eg.
  { apply store_inv in H0. destruct H0 as (O & Hs & Hok).
    assert (K : x86_known ty = true /\ x86_width ty = Z.of_nat 4).
    { assert (D : ty = 22 \/ ty = 9 \/ ty = 42 \/ ty = 41) by (clear - Eg; lia).
      destruct D as [D|[D|[D|D]]]; rewrite D; split; reflexivity. }
    destruct K as [K1 K2]. rewrite K2. split; [auto|]. split; [exact O|]. split; [|exact Hok]. intros _.
    destruct (Z.eqb_spec ty 2) as [Ty|N2]; [subst ty; discriminate Eg|].
    match type of Hs with has _ _ _ (?v mod _) => replace (v mod 2 ^ (8 * Z.of_nat 4)) with
      ((if is_undef_symbol s then X + 8 - (t_addr c + r_offset r)
        else if y_type s =? STT_TLS then r_addend r + t_load c - 4 - (t_addr c + r_offset r)
        else X - (t_addr c + r_offset r)) mod 2 ^ (8 * Z.of_nat 4)) in Hs; [exact Hs|] end.
    symmetry. destruct (is_undef_symbol s).
    - apply u64_sub_mod; [cbn; lia|]. apply u64_add_mod; [cbn; lia|]. apply HX. cbn. lia.
    - destruct (y_type s =? STT_TLS).
      + apply u64_sub_mod; [cbn; lia|]. apply u64_mod. cbn. lia.
      + apply u64_sub_mod; [cbn; lia|]. apply HX. cbn. lia. }
  destruct (Z.eqb_spec ty 2) as [Ty|N2].
  { subst ty. apply store_inv in H0. destruct H0 as (O & Hs & Hok). split; [reflexivity|]. split; [exact O|]. split; [|exact Hok].
    intros _. change (x86_width 2) with (Z.of_nat 4).
    match type of Hs with has _ _ _ (?v mod _) => replace (v mod 2 ^ (8 * Z.of_nat 4)) with
      ((X - (t_addr c + r_offset r)) mod 2 ^ (8 * Z.of_nat 4)) in Hs; [exact Hs|] end.
    symmetry. apply u64_sub_mod; [cbn; lia|]. apply HX. cbn. lia. }
  destruct ((ty =? 18) || (ty =? 23)) eqn:Et; [|discriminate].
  injection H0 as <-.
  assert (D : ty = 18 \/ ty = 23) by (clear - Et; lia).
  destruct D as [->| ->]; (split; [reflexivity|]; split; [apply only_at_refl|split; [cbn; lia|auto]]).
Qed.

Lemma x86_no_stop c syms prev r buf b : x86_reloc c syms prev r buf <> Stop b.
Proof.
  unfold x86_reloc. destruct (_ <=? _); [discriminate|].
  destruct (nth_error _ _); [|discriminate]. cbv zeta.
  repeat match goal with |- context [if ?x then _ else _] => destruct x end;
    try discriminate; apply store_stop.
Qed.

Lemma undef_iff s : is_undef_symbol s = true <-> undefined s.
Proof. unfold is_undef_symbol, undefined, SHN_UNDEF, SHN_LORESERVE. lia. Qed.

Lemma x86_right_value c s r n v : x86_right c s r n v ->
  n = x86_width (r_type r) /\ v mod 2 ^ (8 * n) = x86_value c s r mod 2 ^ (8 * n).
Proof.
  unfold x86_value. intros H. destruct H as [n v Hi H|n v Hi Hu H|Hi Hu H|Hu Ht H].
  - replace (t_info c && is_undef_symbol s) with false.
    2:{ destruct (t_info c) eqn:E1; [|reflexivity]. destruct (is_undef_symbol s) eqn:E2; [|reflexivity].
        exfalso. apply Hi. split; [reflexivity|]. now apply undef_iff. }
    unfold x86_abi in H. destruct (r_type r) as [|p|p] eqn:E; [| |discriminate].
    + injection H as <- <-. split; [reflexivity|]. change (Z.of_nat 0) with 0. cbn [Z.mul].
      change (2 ^ 0) with 1. rewrite !Z.mod_1_r. reflexivity.
    + do 4 (try destruct p as [p|p|]); try discriminate; injection H as <- <-;
        (split; [reflexivity|]); cbn [Z.eqb Pos.eqb orb]; reflexivity.
  - apply undef_iff in Hu. rewrite Hi, Hu. cbn [andb].
    unfold x86_abi in H. destruct (r_type r) as [|p|p] eqn:E; [| |discriminate].
    + injection H as <- <-. split; [reflexivity|]. change (Z.of_nat 0) with 0. cbn [Z.mul].
      change (2 ^ 0) with 1. rewrite !Z.mod_1_r. reflexivity.
    + do 4 (try destruct p as [p|p|]); try discriminate; injection H as <- <-;
        (split; [reflexivity|]); cbn [Z.eqb Pos.eqb orb]; rewrite ?Z.add_0_r; reflexivity.
  - apply undef_iff in Hu. rewrite Hi, Hu. cbn [andb].
    destruct H as [E|[E|[E|[]]]]; rewrite <- E; (split; [reflexivity|]);
      cbn [Z.eqb Pos.eqb orb]; f_equal; unfold place; lia.
  - assert (Hf : is_undef_symbol s = false).
    { destruct (is_undef_symbol s) eqn:E; [|reflexivity]. apply undef_iff in E. tauto. }
    rewrite Hf, andb_false_r, Ht. change (6 =? STT_TLS) with true.
    destruct H as [E|[E|[E|[E|[]]]]]; rewrite <- E; (split; [reflexivity|]);
      cbn [Z.eqb Pos.eqb orb]; f_equal; unfold place; lia.
Qed.

Lemma x86_step_right c syms prev r buf b s n v :
  x86_reloc c syms prev r buf = Next b ->
  nth_error syms (Z.to_nat (r_sym r)) = Some s ->
  x86_right c s r n v ->
  only_at buf b (locn c r) n /\ (0 < n -> has b (locn c r) n (v mod 2 ^ (8 * n))).
Proof.
  intros H Es Hr. destruct (x86_reloc_inv _ _ _ _ _ _ H) as (s' & Es' & _ & _ & O & Hh & _).
  assert (s' = s) by congruence. subst s'.
  destruct (x86_right_value _ _ _ _ _ Hr) as [-> E]. split; [exact O|].
  intros Hn. rewrite E. now apply Hh.
Qed.

Lemma x86_section c syms rs buf buf' :
  apply_loop (x86_reloc c syms) [] rs buf = ROk buf' -> bytes_ok buf ->
  disjoint_fields x86_width c rs ->
  length buf' = length buf /\
  (forall i, 0 <= i ->
     (forall r, In r rs -> ~ in_range i (locn c r) (x86_width (r_type r))) ->
     nth_error buf' (Z.to_nat i) = nth_error buf (Z.to_nat i)) /\
  (forall r s n v, In r rs -> nth_error syms (Z.to_nat (r_sym r)) = Some s ->
     x86_right c s r n v -> 0 < n -> has buf' (locn c r) n (v mod 2 ^ (8 * n))).
Proof.
  intros H Hb Hd.
  destruct (loop_fields (x86_reloc c syms) (locn c) (fun r => x86_width (r_type r))
    (fun r _ o => forall s n v, nth_error syms (Z.to_nat (r_sym r)) = Some s ->
       x86_right c s r n v -> 0 < n ->
       exists bs, o = Some bs /\ le_val bs = v mod 2 ^ (8 * n)) rs [] buf buf')
    as (L & K & Q & _); auto.
  - intros prev r a b _ Ha E.
    destruct (x86_reloc_inv _ _ _ _ _ _ E) as (s' & Es' & _ & _ & O & Hh & Hok).
    split; [auto|]. split; [exact O|].
    intros s n v Es Hr Hn. assert (s' = s) by congruence. subst s'.
    destruct (x86_right_value _ _ _ _ _ Hr) as [-> Ev]. rewrite Ev. now apply Hh.
  - intros. apply x86_no_stop.
  - split; [auto|]. split; [exact K|]. intros r s n v Hin Es Hr Hn.
    destruct (x86_right_value _ _ _ _ _ Hr) as [En _].
    destruct (Q r Hin s n v Es Hr Hn) as (bs & E1 & E2). exists bs. rewrite En at 1. auto.
Qed.

Lemma apply_loop_each {A} (one : list rela -> rela -> A -> step A) (P : rela -> Prop) rs :
  (forall prev r a b, one prev r a <> Stop b) ->
  (forall prev r a b, one prev r a = Next b -> P r) ->
  forall prev a a', apply_loop one prev rs a = ROk a' -> Forall P rs.
Proof.
  intros Hs Hp. induction rs as [|r rs IH]; intros prev a a'; cbn; [constructor|].
  destruct (one prev r a) eqn:E; try discriminate.
  - intros H. constructor; [eauto|]. eapply IH; eauto.
  - exfalso. eapply Hs; eauto.
Qed.

Lemma x86_accepted c syms rs buf buf' :
  apply_loop (x86_reloc c syms) [] rs buf = ROk buf' ->
  Forall (fun r => r_offset r < t_size c /\ x86_known (r_type r) = true) rs.
Proof.
  apply apply_loop_each; [intros; apply x86_no_stop|].
  intros prev r a b H. destruct (x86_reloc_inv _ _ _ _ _ _ H) as (s & _ & H1 & H2 & _). auto.
Qed.

Lemma x86_unknown_fails c syms prev r buf s :
  nth_error syms (Z.to_nat (r_sym r)) = Some s ->
  t_size c <= r_offset r \/ x86_known (r_type r) = false ->
  x86_reloc c syms prev r buf = Fail.
Proof.
  intros Es H. unfold x86_reloc. destruct (Z.leb_spec (t_size c) (r_offset r)); [reflexivity|].
  destruct H as [H|H]; [lia|]. rewrite Es. cbv zeta.
  unfold x86_known in H. cbn [existsb] in H.
  rewrite !orb_false_iff in H. decompose [and] H.
  unfold R_X86_64_NONE, R_X86_64_64, R_X86_64_PC32, R_X86_64_GOTPCREL, R_X86_64_32,
    R_X86_64_32S, R_X86_64_TPOFF64, R_X86_64_GOTTPOFF, R_X86_64_TPOFF32,
    R_X86_64_GOTPCRELX, R_X86_64_REX_GOTPCRELX.
  repeat match goal with E : (_ =? _) = false |- _ => rewrite E; clear E end. reflexivity.
Qed.
