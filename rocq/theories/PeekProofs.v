(** The page-cached reader and the reading back of the table of replaced
    functions, when no operation fails. *)
From Coq Require Import ZArith List Bool Lia ZifyBool ZifyNat.
From Verif Require Import Base BaseProofs RemoteModel JumpModel EngineModel EngineSpec LayoutProofs.
Import ListNotations.
Open Scope Z_scope.
Ltac Zify.zify_post_hook ::= Z.div_mod_to_equations.

(** The cached bytes are bytes of the patient. *)
Record iter_ok (pg : Z) (m : mem) (it : iter) : Prop := {
  io_buf : zlen (it_buf it) = pg;
  io_len : 0 <= it_len it <= pg;
  io_base : 0 <= it_base it;
  io_top : it_base it + it_len it <= 2 ^ 63;
  io_data : forall k, 0 <= k < it_len it ->
    m (it_base it + k) = Some (nth (Z.to_nat k) (it_buf it) 0) }.

Lemma iter_init_ok pg m : 0 <= pg -> iter_ok pg m (iter_init pg).
Proof.
  intros Hp. unfold iter_init. constructor; cbn [it_base it_len it_buf]; try lia.
  unfold zlen. rewrite repeat_length. lia.
Qed.

Lemma maplen_ge m a n k : (k <= n)%nat -> mapped m a (Z.of_nat k) -> (k <= maplen m a n)%nat.
Proof.
  revert a k. induction n as [|n IH]; intros a k Hk Hm; [lia|].
  destruct k as [|k]; [lia|]. cbn [maplen].
  destruct (m a) eqn:E.
  - enough (k <= maplen m (a + 1) n)%nat by lia. apply IH; [lia|].
    intros x Hx. apply Hm. unfold in_range in *. lia.
  - exfalso. apply (Hm a); [unfold in_range; lia|exact E].
Qed.
Lemma maplen_mapped m a n : mapped m a (Z.of_nat (maplen m a n)).
Proof.
  revert a. induction n as [|n IH]; intros a; cbn [maplen].
  - intros x Hx. unfold in_range in Hx. lia.
  - destruct (m a) eqn:E.
    + intros x Hx. unfold in_range in Hx. destruct (Z.eq_dec x a) as [->|C]; [congruence|].
      apply (IH (a + 1)). unfold in_range. lia.
    + intros x Hx. unfold in_range in Hx. lia.
Qed.

Lemma slice_mread m a bs off n : 0 <= off -> 0 <= n -> off + n <= zlen bs ->
  (forall k, off <= k < off + n -> m (a + k) = Some (nth (Z.to_nat k) bs 0)) ->
  exists r, slice bs off n = Some r /\ mread m (a + off) (Z.to_nat n) = Some r.
Proof.
  intros H1 H2 H3 Hd. unfold slice.
  replace ((0 <=? off) && (0 <=? n) && (off + n <=? zlen bs)) with true by lia.
  eexists. split; [reflexivity|].
  apply mread_spec. split.
  - rewrite firstn_length, skipn_length. unfold zlen in H3. lia.
  - intros x Hx. unfold in_range in Hx.
    replace x with (a + (x - a)) at 1 by lia. rewrite Hd by lia. f_equal.
    rewrite nth_firstn by lia. rewrite nth_skipn. f_equal. lia.
Qed.

Lemma peek_spec pg it size a s : so s = [] -> iter_ok pg (sm s) it ->
  0 < size <= pg -> mapped (sm s) a size -> 0 <= a -> a + pg <= 2 ^ 63 ->
  exists it' bs, iter_peek pg it size a s = (Ret (it', Some bs), s) /\
    iter_ok pg (sm s) it' /\ mread (sm s) a (Z.to_nat size) = Some bs.
Proof.
  intros Hso [I1 I2 I3 I4 I5] Hsz Hmap Ha Htop. unfold iter_peek.
  change (2 ^ 63) with 9223372036854775808 in *.
  replace (pg <? size) with false by lia.
  destruct ((it_len it =? 0) || (a <? it_base it) ||
            (u64 (it_base it + it_len it) <? u64 (a + size))) eqn:Ec.
  - unfold bind, pread, pop. rewrite Hso.
    set (k := maplen (sm s) a (Z.to_nat pg)).
    assert (Hk1 : (Z.to_nat size <= k)%nat) by (apply maplen_ge; [lia|rewrite Z2Nat.id by lia; exact Hmap]).
    assert (Hk2 : (k <= Z.to_nat pg)%nat) by apply maplen_le.
    pose proof (maplen_mapped (sm s) a (Z.to_nat pg)) as Hmm. fold k in Hmm.
    replace (Nat.eqb k 0 && negb (Nat.eqb (Z.to_nat pg) 0)) with false by lia.
    destruct (mread_some _ _ _ Hmm) as [bs Hbs]. rewrite Hbs.
    pose proof (proj1 (mread_spec _ _ _ _) Hbs) as [HL HD].
    assert (Hz : zlen bs = Z.of_nat k) by (unfold zlen; lia).
    replace (zlen bs <? size) with false by lia.
    cbn [it_base it_buf]. replace (a - a) with 0 by lia. change (u64 0) with 0.
    set (buf := bs ++ skipn (length bs) (it_buf it)).
    assert (Hbuf : forall q, 0 <= q < zlen bs -> sm s (a + q) = Some (nth (Z.to_nat q) buf 0)).
    { intros q Hq. rewrite HD by (unfold in_range; lia). f_equal. unfold buf.
      rewrite app_nth1 by (unfold zlen in Hq; lia). f_equal. lia. }
    assert (Hlb : zlen buf = pg).
    { unfold buf. rewrite zlen_app. unfold zlen in *. rewrite skipn_length. lia. }
    destruct (slice_mread (sm s) a buf 0 size ltac:(lia) ltac:(lia) ltac:(lia)) as (r & Hr1 & Hr2).
    { intros q Hq. apply Hbuf. lia. }
    rewrite Hr1. unfold ret. replace (a + 0) with a in Hr2 by lia.
    exists {| it_base := a; it_len := zlen bs; it_buf := buf |}, r. (repeat match goal with |- _ /\ _ => split end).
    + reflexivity.
    + constructor; cbn [it_base it_len it_buf]; try lia; auto.
    + exact Hr2.
  - rewrite !u64_small in Ec by (change (2 ^ 64) with 18446744073709551616; lia).
    rewrite u64_small by (change (2 ^ 64) with 18446744073709551616; lia).
    destruct (slice_mread (sm s) (it_base it) (it_buf it) (a - it_base it) size
      ltac:(lia) ltac:(lia) ltac:(lia)) as (r & Hr1 & Hr2).
    { intros q Hq. apply I5. lia. }
    rewrite Hr1. replace (it_base it + (a - it_base it)) with a in Hr2 by lia.
    exists it, r. (repeat match goal with |- _ /\ _ => split end); auto. constructor; auto.
Qed.

Lemma read_infos_spec pg s : so s = [] -> info_size <= pg -> forall tab it a acc fuel last,
  iter_ok pg (sm s) it -> 0 <= a -> a + info_size * zlen tab + pg <= 2 ^ 63 ->
  mapped (sm s) a (info_size * (zlen tab + 1)) ->
  (forall j bs, mread (sm s) (a + info_size * Z.of_nat j) 48 = Some bs -> (j < length tab)%nat ->
     info_of bs = nth j tab zinfo /\ is_end_info (info_of bs) = false) ->
  mread (sm s) (a + info_size * zlen tab) 48 = Some last -> is_end_info (info_of last) = true ->
  (length tab < fuel)%nat ->
  read_infos pg fuel it a acc s = (Ret (acc ++ tab), s).
Proof.
  intros Hso Hpg. induction tab as [|i tab IH]; intros it a acc fuel last Hit Ha Htop Hmap Hent Hl Hle Hf;
    (destruct fuel as [|fuel]; [lia|]); cbn [read_infos]; unfold info_size in *.
  - rewrite zlen_nil in *.
    destruct (peek_spec pg it 48 a s Hso Hit ltac:(lia)) as (it' & bs & E1 & E2 & E3); try lia.
    { intros x Hx. apply Hmap. unfold in_range in *. lia. }
    unfold bind. rewrite E1. replace (a + 48 * 0) with a in Hl by lia; cbn [Z.mul] in Hl; rewrite ?Z.add_0_r in Hl.
    change (Z.to_nat 48) with 48%nat in E3. rewrite Hl in E3. apply some_inj in E3. subst bs.
    rewrite Hle. unfold ret. rewrite app_nil_r. reflexivity.
  - rewrite zlen_cons in *. pose proof (zlen_nonneg tab).
    destruct (peek_spec pg it 48 a s Hso Hit ltac:(lia)) as (it' & bs & E1 & E2 & E3); try lia.
    { intros x Hx. apply Hmap. unfold in_range in *. lia. }
    unfold bind. rewrite E1. change (Z.to_nat 48) with 48%nat in E3.
    destruct (Hent 0%nat bs) as [G1 G2]; [replace (a + 48 * Z.of_nat 0) with a by lia; exact E3|cbn; lia|].
    rewrite G2. cbn [nth] in G1. rewrite G1.
    rewrite u64_small by (change (2 ^ 64) with 18446744073709551616; change (2 ^ 63) with 9223372036854775808 in *; lia).
    rewrite (IH it' (a + 48) (acc ++ [i]) fuel last); auto; try lia.
    + rewrite <- app_assoc. reflexivity.
    + intros x Hx. apply Hmap. unfold in_range in *. lia.
    + intros j bs' Hj1 Hj2. apply (Hent (S j) bs'); [|cbn; lia].
      replace (a + 48 * Z.of_nat (S j)) with (a + 48 + 48 * Z.of_nat j) by lia. exact Hj1.
    + replace (a + 48 + 48 * zlen tab) with (a + 48 * (1 + zlen tab)) by lia. exact Hl.
    + cbn in Hf. lia.
Qed.
