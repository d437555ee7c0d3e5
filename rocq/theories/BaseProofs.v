(** Lemmas about Base.v. *)
From Coq Require Import ZArith List Bool Lia ZifyBool ZifyNat.
From Verif Require Import Base.
Import ListNotations.
Open Scope Z_scope.
Ltac Zify.zify_post_hook ::= Z.div_mod_to_equations.

Lemma u64_range x : 0 <= u64 x < 2 ^ 64.
Proof. unfold u64. apply Z.mod_pos_bound. lia. Qed.
Lemma u32_range x : 0 <= u32 x < 2 ^ 32.
Proof. unfold u32. apply Z.mod_pos_bound. lia. Qed.
Lemma u64_small x : 0 <= x < 2 ^ 64 -> u64 x = x.
Proof. intros H. unfold u64. apply Z.mod_small. lia. Qed.
Lemma u32_small x : 0 <= x < 2 ^ 32 -> u32 x = x.
Proof. intros H. unfold u32. apply Z.mod_small. lia. Qed.

Lemma zlen_nonneg {A} (l : list A) : 0 <= zlen l.
Proof. unfold zlen. lia. Qed.
Lemma zlen_app {A} (l1 l2 : list A) : zlen (l1 ++ l2) = zlen l1 + zlen l2.
Proof. unfold zlen. rewrite app_length. lia. Qed.
Lemma zlen_cons {A} (x : A) l : zlen (x :: l) = 1 + zlen l.
Proof. unfold zlen. cbn [length]. lia. Qed.
Lemma zlen_nil {A} : zlen (@nil A) = 0.
Proof. reflexivity. Qed.

(** *** Encoding *)
Lemma le_bytes_length n x : length (le_bytes n x) = n.
Proof. revert x; induction n as [|n IH]; intros x; cbn; [reflexivity|]. now rewrite IH. Qed.
Lemma le_bytes_zlen n x : zlen (le_bytes n x) = Z.of_nat n.
Proof. unfold zlen. now rewrite le_bytes_length. Qed.

Lemma le_bytes_ok n x : bytes_ok (le_bytes n x).
Proof.
  revert x; induction n as [|n IH]; intros x; cbn [le_bytes]; constructor.
  - unfold byte_ok. apply Z.mod_pos_bound. lia.
  - apply IH.
Qed.

Lemma le_val_bytes n x : le_val (le_bytes n x) = x mod 256 ^ Z.of_nat n.
Proof.
  revert x; induction n as [|n IH]; intros x.
  - cbn. now rewrite Z.mod_1_r.
  - cbn [le_bytes le_val]. rewrite IH.
    rewrite Nat2Z.inj_succ, Z.pow_succ_r by lia.
    rewrite Z.rem_mul_r by lia. reflexivity.
Qed.

Lemma le_val_range bs : bytes_ok bs -> 0 <= le_val bs < 256 ^ zlen bs.
Proof.
  induction bs as [|b r IH]; intros H.
  - cbn. lia.
  - inversion H as [|? ? Hb Hr]; subst. specialize (IH Hr).
    rewrite zlen_cons. cbn [le_val].
    rewrite Z.pow_add_r by (try lia; apply zlen_nonneg).
    unfold byte_ok in Hb. change (256 ^ 1) with 256. nia.
Qed.

Lemma le_bytes_val bs : bytes_ok bs -> le_bytes (length bs) (le_val bs) = bs.
Proof.
  induction bs as [|b r IH]; intros H; [reflexivity|].
  inversion H as [|? ? Hb Hr]; subst. cbn [length le_bytes le_val].
  unfold byte_ok in Hb.
  replace ((b + 256 * le_val r) mod 256) with b by lia.
  replace ((b + 256 * le_val r) / 256) with (le_val r) by lia.
  now rewrite IH.
Qed.

Lemma le_bytes_mod n x : le_bytes n (x mod 256 ^ Z.of_nat n) = le_bytes n x.
Proof.
  revert x; induction n as [|n IH]; intros x; [reflexivity|].
  cbn [le_bytes]. rewrite Nat2Z.inj_succ, Z.pow_succ_r by lia.
  rewrite Z.rem_mul_r by lia.
  set (p := 256 ^ Z.of_nat n). assert (Hp : 0 < p) by (unfold p; lia).
  replace ((x mod 256 + 256 * ((x / 256) mod p)) mod 256) with (x mod 256)
    by (rewrite (Z.mul_comm 256), Z.mod_add, Z.mod_mod by lia; reflexivity).
  replace ((x mod 256 + 256 * ((x / 256) mod p)) / 256) with ((x / 256) mod p).
  - f_equal. unfold p. apply IH.
  - rewrite (Z.mul_comm 256), Z.div_add by lia.
    rewrite (Z.div_small (x mod 256)) by (apply Z.mod_pos_bound; lia). lia.
Qed.

(** *** Slices *)
Lemma nth_skipn (l : list Z) k j : nth j (skipn k l) 0 = nth (k + j) l 0.
Proof.
  revert l; induction k as [|k IHk]; intros l; [reflexivity|].
  destruct l; cbn [skipn Nat.add nth]; [destruct j; reflexivity|apply IHk].
Qed.
Lemma nth_firstn (l : list Z) k j : (j < k)%nat -> nth j (firstn k l) 0 = nth j l 0.
Proof.
  revert l j; induction k as [|k IHk]; intros l j Hj; [lia|].
  destruct l; [destruct j; reflexivity|]. destruct j; [reflexivity|]. cbn. apply IHk. lia.
Qed.
Lemma slice_length bs off n r : slice bs off n = Some r -> zlen r = n.
Proof.
  unfold slice. destruct (_ && _) eqn:E; [|discriminate].
  intros H. inversion H; subst. unfold zlen in *.
  rewrite firstn_length, skipn_length. lia.
Qed.

Lemma splice_length bs off new r : splice bs off new = Some r -> zlen r = zlen bs.
Proof.
  unfold splice. destruct (_ && _) eqn:E; [|discriminate].
  intros H. inversion H; subst. unfold zlen in *.
  rewrite !app_length, firstn_length, skipn_length. lia.
Qed.

Lemma slice_splice_same bs off new r :
  splice bs off new = Some r -> slice r off (zlen new) = Some new.
Proof.
  intros H. pose proof (splice_length _ _ _ _ H) as HL. revert H.
  unfold splice. destruct (_ && _) eqn:E; [|discriminate]. unfold slice.
  intros H. injection H as Hr. rewrite HL.
  replace ((0 <=? off) && (0 <=? zlen new) && (off + zlen new <=? zlen bs)) with true
    by (pose proof (zlen_nonneg new); lia).
  f_equal. subst r. unfold zlen in *.
  rewrite skipn_app, skipn_firstn_comm, firstn_length.
  replace (Z.to_nat off - Z.to_nat off)%nat with O by lia. cbn [firstn].
  replace (Z.to_nat off - Nat.min (Z.to_nat off) (length bs))%nat with O by lia.
  cbn [skipn app]. rewrite Nat2Z.id, firstn_app, firstn_all.
  replace (length new - length new)%nat with O by lia. cbn [firstn]. apply app_nil_r.
Qed.

Lemma slice_splice_other bs off new r off' n :
  splice bs off new = Some r ->
  (off' + n <= off \/ off + zlen new <= off') -> 0 <= n ->
  slice r off' n = slice bs off' n.
Proof.
  intros H Hd Hn. pose proof (splice_length _ _ _ _ H) as HL. revert H.
  unfold splice. destruct (_ && _) eqn:E; [|discriminate]. unfold slice.
  intros H. injection H as Hr. rewrite HL.
  destruct ((0 <=? off') && (0 <=? n) && (off' + n <=? zlen bs)) eqn:E2; [|reflexivity].
  f_equal. subst r. unfold zlen in *.
  apply nth_ext with (d := 0) (d' := 0).
  { rewrite !firstn_length, !skipn_length, !app_length, firstn_length, skipn_length. lia. }
  intros i Hi. rewrite firstn_length, skipn_length, !app_length, firstn_length, skipn_length in Hi.
  rewrite !nth_firstn by lia. rewrite !nth_skipn.
  destruct (Z.lt_ge_cases (Z.of_nat (Z.to_nat off' + i)) off) as [C|C].
  - rewrite app_nth1 by (rewrite firstn_length; lia). apply nth_firstn. lia.
  - rewrite app_nth2 by (rewrite firstn_length; lia).
    rewrite app_nth2 by (rewrite firstn_length; lia).
    rewrite nth_skipn, firstn_length. f_equal. lia.
Qed.

(** *** Rounding *)
Lemma lnot_mask k : 0 <= k < 64 -> u64 (Z.lnot (2 ^ k - 1)) = 2 ^ 64 - 2 ^ k.
Proof.
  intros H. unfold u64, Z.lnot.
  replace (Z.pred (- (2 ^ k - 1))) with (- 2 ^ k) by lia.
  assert (0 < 2 ^ k) by (apply Z.pow_pos_nonneg; lia).
  assert (2 ^ k < 2 ^ 64) by (apply Z.pow_lt_mono_r; lia).
  symmetry. apply Z.mod_unique_pos with (q := -1); lia.
Qed.

Lemma land_mask x k : 0 <= x < 2 ^ 64 -> 0 <= k < 64 ->
  Z.land x (2 ^ 64 - 2 ^ k) = x / 2 ^ k * 2 ^ k.
Proof.
  intros Hx Hk.
  replace (2 ^ 64 - 2 ^ k) with (Z.shiftl (Z.ones (64 - k)) k).
  2:{ rewrite Z.shiftl_mul_pow2, Z.ones_equiv by lia.
      replace (Z.pred (2 ^ (64 - k)) * 2 ^ k) with (2 ^ (64 - k) * 2 ^ k - 2 ^ k) by lia.
      rewrite <- Z.pow_add_r by lia. f_equal. f_equal. lia. }
  rewrite <- Z.shiftl_mul_pow2, <- Z.shiftr_div_pow2 by lia.
  apply Z.bits_inj'. intros n Hn.
  rewrite Z.land_spec, !Z.shiftl_spec by lia.
  destruct (Z.ltb_spec n k) as [C|C].
  - rewrite !(Z.testbit_neg_r _ (n - k)) by lia. now rewrite andb_false_r.
  - rewrite Z.shiftr_spec by lia. replace (n - k + k) with n by lia.
    destruct (Z.ltb_spec n 64) as [C2|C2].
    + rewrite Z.ones_spec_low by lia. apply andb_true_r.
    + rewrite Z.ones_spec_high by lia. rewrite andb_false_r.
      destruct (Z.eq_dec x 0) as [->|Hx0]; [now rewrite Z.testbit_0_l|].
      symmetry. apply Z.bits_above_log2; [lia|].
      apply Z.lt_le_trans with 64; [|lia]. apply Z.log2_lt_pow2; lia.
Qed.

Lemma round_down_spec x k : 0 <= x < 2 ^ 64 -> 0 <= k < 64 ->
  round_down x (2 ^ k) = x / 2 ^ k * 2 ^ k.
Proof.
  intros Hx Hk. unfold round_down. rewrite lnot_mask by lia.
  rewrite (u64_small x) by lia. apply land_mask; lia.
Qed.

Lemma round_up_spec x k : 0 <= x -> x + 2 ^ k - 1 < 2 ^ 64 -> 0 <= k < 64 ->
  round_up x (2 ^ k) = (x + 2 ^ k - 1) / 2 ^ k * 2 ^ k.
Proof.
  intros Hx Hx2 Hk. unfold round_up. rewrite lnot_mask by lia.
  assert (0 < 2 ^ k) by (apply Z.pow_pos_nonneg; lia).
  rewrite u64_small by lia. apply land_mask; lia.
Qed.

(** What a caller needs to know about ROUND_UP. *)
Lemma round_up_bounds x k : 0 <= x -> x + 2 ^ k - 1 < 2 ^ 64 -> 0 <= k < 64 ->
  x <= round_up x (2 ^ k) < x + 2 ^ k /\ (round_up x (2 ^ k)) mod 2 ^ k = 0.
Proof.
  intros. rewrite round_up_spec by lia.
  assert (Hp : 0 < 2 ^ k) by (apply Z.pow_pos_nonneg; lia).
  set (p := 2 ^ k) in *. split; [|apply Z.mod_mul; lia].
  pose proof (Z.div_mod (x + p - 1) p ltac:(lia)).
  pose proof (Z.mod_pos_bound (x + p - 1) p ltac:(lia)). nia.
Qed.

Lemma round_up_idem x k : 0 <= x -> x + 2 ^ k - 1 < 2 ^ 64 -> 0 <= k < 64 ->
  x mod 2 ^ k = 0 -> round_up x (2 ^ k) = x.
Proof.
  intros. rewrite round_up_spec by lia.
  assert (Hp : 0 < 2 ^ k) by (apply Z.pow_pos_nonneg; lia).
  set (p := 2 ^ k) in *.
  pose proof (Z.div_mod x p ltac:(lia)).
  replace ((x + p - 1) / p) with (x / p); [nia|].
  apply Z.div_unique with (r := p - 1); lia.
Qed.

Lemma round_down_bounds x k : 0 <= x < 2 ^ 64 -> 0 <= k < 64 ->
  round_down x (2 ^ k) <= x < round_down x (2 ^ k) + 2 ^ k /\
  (round_down x (2 ^ k)) mod 2 ^ k = 0 /\ 0 <= round_down x (2 ^ k).
Proof.
  intros. rewrite round_down_spec by lia.
  assert (Hp : 0 < 2 ^ k) by (apply Z.pow_pos_nonneg; lia).
  set (p := 2 ^ k) in *.
  pose proof (Z.div_mod x p ltac:(lia)).
  pose proof (Z.mod_pos_bound x p ltac:(lia)).
  assert (0 <= x / p) by (apply Z.div_pos; lia).
  split; [nia|]. split; [apply Z.mod_mul; lia|nia].
Qed.

(** *** Memory *)
Lemma mset_in m a bs x : in_range x a (zlen bs) ->
  mset m a bs x = Some (nth (Z.to_nat (x - a)) bs 0).
Proof. intros [H1 H2]. unfold mset. replace (_ && _) with true by lia. reflexivity. Qed.
Lemma mset_out m a bs x : ~ in_range x a (zlen bs) -> mset m a bs x = m x.
Proof.
  unfold in_range. intros H. unfold mset. replace (_ && _) with false by lia. reflexivity.
Qed.
Lemma mset_nil m a x : mset m a [] x = m x.
Proof. apply mset_out. unfold in_range. rewrite zlen_nil. lia. Qed.

Lemma mset_mapped m a bs b n : mapped m b n -> mapped (mset m a bs) b n.
Proof.
  intros H x Hx. specialize (H x Hx). unfold mset. destruct (_ && _); [discriminate|exact H].
Qed.

Lemma maplen_le m a n : (maplen m a n <= n)%nat.
Proof. revert a; induction n as [|n IH]; intros a; cbn; [lia|]. destruct (m a); [|lia]. specialize (IH (a + 1)). lia. Qed.

Lemma maplen_full m a n : mapped m a (Z.of_nat n) <-> maplen m a n = n.
Proof.
  revert a; induction n as [|n IH]; intros a; cbn [maplen].
  - split; [reflexivity|]. intros _ x Hx. unfold in_range in Hx. lia.
  - split.
    + intros H. pose proof (H a ltac:(unfold in_range; lia)) as Ha.
      destruct (m a); [|congruence]. f_equal. apply IH.
      intros x Hx. apply H. unfold in_range in *. lia.
    + destruct (m a) eqn:Ea; [|discriminate]. intros H. injection H as H.
      apply IH in H. intros x Hx. unfold in_range in *.
      destruct (Z.eq_dec x a) as [->|]; [congruence|]. apply H. unfold in_range. lia.
Qed.

Lemma pwrite_full m a bs : mapped m a (zlen bs) ->
  pwrite m a bs = (length bs, mset m a bs).
Proof.
  intros H. unfold pwrite. apply maplen_full in H. rewrite H, firstn_all. reflexivity.
Qed.

Lemma mread_some m a n : mapped m a (Z.of_nat n) -> exists bs, mread m a n = Some bs.
Proof.
  revert a; induction n as [|n IH]; intros a H; cbn; [eauto|].
  destruct (IH (a + 1)) as [bs Hbs].
  { intros x Hx. apply H. unfold in_range in *. lia. }
  pose proof (H a ltac:(unfold in_range; lia)) as Ha.
  destruct (m a); [|congruence]. rewrite Hbs. eauto.
Qed.

Lemma mread_spec m a n bs :
  mread m a n = Some bs <->
  length bs = n /\ forall x, in_range x a (Z.of_nat n) -> m x = Some (nth (Z.to_nat (x - a)) bs 0).
Proof.
  revert a bs; induction n as [|n IH]; intros a bs; cbn [mread].
  - split.
    + intros H; inversion H; subst. split; [reflexivity|]. unfold in_range. intros; lia.
    + intros [H _]. destruct bs; [reflexivity|discriminate].
  - split.
    + destruct (m a) as [b|] eqn:Ea; [|discriminate].
      destruct (mread m (a + 1) n) as [r|] eqn:Er; [|discriminate].
      intros H; inversion H; subst. apply IH in Er. destruct Er as [Hl Hr].
      split; [cbn; lia|]. intros x Hx. unfold in_range in *.
      destruct (Z.eq_dec x a) as [->|C].
      * rewrite Z.sub_diag. exact Ea.
      * rewrite Hr by (unfold in_range; lia).
        replace (Z.to_nat (x - a)) with (S (Z.to_nat (x - (a + 1)))) by lia. reflexivity.
    + intros [Hl Hx]. destruct bs as [|b r]; [discriminate|].
      pose proof (Hx a ltac:(unfold in_range; lia)) as Ha.
      rewrite Z.sub_diag in Ha. cbn in Ha. rewrite Ha.
      assert (Er : mread m (a + 1) n = Some r).
      { apply IH. split; [cbn in Hl; lia|]. intros x Hxx. unfold in_range in *.
        rewrite Hx by (unfold in_range; lia).
        replace (Z.to_nat (x - a)) with (S (Z.to_nat (x - (a + 1)))) by lia. reflexivity. }
      now rewrite Er.
Qed.

Lemma mread_length m a n bs : mread m a n = Some bs -> length bs = n.
Proof. intros H. apply mread_spec in H. tauto. Qed.

Lemma mread_ext m m' a n :
  (forall x, in_range x a (Z.of_nat n) -> m x = m' x) -> mread m a n = mread m' a n.
Proof.
  revert a; induction n as [|n IH]; intros a H; cbn; [reflexivity|].
  rewrite (H a) by (unfold in_range; lia). rewrite (IH (a + 1)); [reflexivity|].
  intros x Hx. apply H. unfold in_range in *. lia.
Qed.

Lemma mread_mset_same m a bs : mread (mset m a bs) a (length bs) = Some bs.
Proof.
  apply mread_spec. split; [reflexivity|]. intros x Hx. apply mset_in.
  unfold in_range, zlen in *. lia.
Qed.

(** Reading inside a block that was written. *)
Lemma mread_mset_sub m a bs off n r :
  slice bs off n = Some r -> mread (mset m a bs) (a + off) (Z.to_nat n) = Some r.
Proof.
  intros H. pose proof (slice_length _ _ _ _ H) as HL.
  unfold slice in H. destruct (_ && _) eqn:E; [|discriminate].
  injection H as Hr. apply mread_spec. split.
  { unfold zlen in HL. lia. }
  intros x Hx. unfold in_range in Hx.
  rewrite mset_in by (unfold in_range; lia). f_equal.
  rewrite <- Hr. rewrite nth_firstn by lia. rewrite nth_skipn. f_equal. lia.
Qed.

Lemma mmap_fixed_in m a n x : in_range x a n -> mmap_fixed m a n x = Some 0.
Proof. unfold in_range, mmap_fixed. intros. replace (_ && _) with true by lia. reflexivity. Qed.
Lemma mmap_fixed_out m a n x : ~ in_range x a n -> mmap_fixed m a n x = m x.
Proof. unfold in_range, mmap_fixed. intros. replace (_ && _) with false by lia. reflexivity. Qed.
Lemma munmap_in m a n x : in_range x a n -> munmap m a n x = None.
Proof. unfold in_range, munmap. intros. replace (_ && _) with true by lia. reflexivity. Qed.
Lemma munmap_out m a n x : ~ in_range x a n -> munmap m a n x = m x.
Proof. unfold in_range, munmap. intros. replace (_ && _) with false by lia. reflexivity. Qed.

(** *** Strings *)
Lemma list_eqb_eq xs ys : list_eqb xs ys = true <-> xs = ys.
Proof.
  revert ys; induction xs as [|x xs IH]; intros [|y ys]; cbn; split; intros H; try congruence.
  - apply andb_true_iff in H. destruct H as [H1 H2]. apply Z.eqb_eq in H1. apply IH in H2. congruence.
  - inversion H; subst. rewrite Z.eqb_refl. apply IH. reflexivity.
Qed.

Definition str_ok (s : list Z) : Prop := Forall (fun b => 0 < b < 256) s.

Lemma strcmp_eq xs ys : str_ok xs -> str_ok ys -> (strcmp xs ys = 0 <-> xs = ys).
Proof.
  revert ys; induction xs as [|x xs IH]; intros [|y ys] Hx Hy; cbn [strcmp].
  - tauto.
  - inversion Hy; subst. split; intros; [lia|congruence].
  - inversion Hx; subst. split; intros; [lia|congruence].
  - inversion Hx; subst. inversion Hy; subst.
    destruct (Z.eqb_spec x y) as [->|C].
    + rewrite IH by assumption. split; congruence.
    + split; intros; [lia|congruence].
Qed.

Lemma strcmp_antisym xs ys : strcmp ys xs = - strcmp xs ys.
Proof.
  revert ys; induction xs as [|x xs IH]; intros [|y ys]; cbn [strcmp]; try lia.
  rewrite Z.eqb_sym. destruct (Z.eqb_spec x y) as [->|C]; [apply IH|lia].
Qed.

Lemma strcmp_trans xs ys zs : str_ok xs -> str_ok ys -> str_ok zs ->
  strcmp xs ys < 0 -> strcmp ys zs < 0 -> strcmp xs zs < 0.
Proof.
  revert ys zs; induction xs as [|x xs IH]; intros [|y ys] [|z zs] Hx Hy Hz H1 H2;
    cbn [strcmp] in *; try lia;
    try (inversion Hx; subst); try (inversion Hy; subst); try (inversion Hz; subst); try lia.
  destruct (Z.eqb_spec x y) as [C1|C1]; destruct (Z.eqb_spec y z) as [C2|C2];
    destruct (Z.eqb_spec x z) as [C3|C3]; try lia; try congruence.
  eauto.
Qed.

Lemma cstr_app s r : str_ok s -> cstr (s ++ 0 :: r) = Some s.
Proof.
  induction s as [|b s IH]; intros H; cbn; [reflexivity|].
  inversion H; subst. destruct (Z.eqb_spec b 0); [lia|]. now rewrite IH.
Qed.

Lemma some_inj {A : Type} (x y : A) : Some x = Some y -> x = y.
Proof. congruence. Qed.
