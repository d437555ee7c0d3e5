(** Proofs about the operations on traced processes. *)
From Coq Require Import ZArith List Bool Lia ZifyBool ZifyNat.
From Verif Require Import Base BaseProofs RemoteModel EngineModel EngineProofs PeekProofs PtraceModel PtraceSpec.
Import ListNotations.
Open Scope Z_scope.
Ltac Zify.zify_post_hook ::= Z.div_mod_to_equations.

(** ** The word-wise writer *)

Lemma mset_app m a bs cs x : mset (mset m a bs) (a + zlen bs) cs x = mset m a (bs ++ cs) x.
Proof.
  unfold mset. rewrite zlen_app. pose proof (zlen_nonneg bs). pose proof (zlen_nonneg cs).
  destruct ((a + zlen bs <=? x) && (x <? a + zlen bs + zlen cs)) eqn:E1;
  destruct ((a <=? x) && (x <? a + (zlen bs + zlen cs))) eqn:E2; try lia.
  - f_equal. rewrite app_nth2 by (unfold zlen in *; lia). f_equal. unfold zlen in *. lia.
  - replace ((a <=? x) && (x <? a + zlen bs)) with true by lia. f_equal.
    rewrite app_nth1 by (unfold zlen in *; lia). reflexivity.
  - replace ((a <=? x) && (x <? a + zlen bs)) with false by lia. reflexivity.
Qed.

Definition wpost (m : mem) (a : Z) (bs : list Z) (r : outcome unit * st) : Prop :=
  match r with
  | (Ret _, s) => forall x, sm s x = mset m a bs x
  | (Err, s) | (Die, s) => exists k, forall x, sm s x = mset m a (firstn k bs) x
  | _ => False
  end.

Lemma poke_post a w s : wpost (sm s) a w (poke a w s).
Proof.
  unfold poke. pose proof (pop_mx s) as [E _]. destruct (pop s) as [an s']. cbn [snd] in E.
  unfold pwrite. destruct an as [|k|k]; cbn.
  - destruct (Nat.eqb_spec (maplen (sm s') a (length w)) (length w)) as [Q|Q]; cbn.
    + intros x. rewrite Q, firstn_all, E. reflexivity.
    + exists (maplen (sm s') a (length w)). intros x. rewrite E. reflexivity.
  - exists 0%nat. intros x. cbn [firstn]. rewrite mset_nil, E. reflexivity.
  - exists 0%nat. intros x. cbn [firstn]. rewrite mset_nil, E. reflexivity.
Qed.

Lemma firstn_prefix_app (bs cs : list Z) k : firstn (length bs + k) (bs ++ cs) = bs ++ firstn k cs.
Proof. rewrite firstn_app_2. reflexivity. Qed.

Lemma mset_ext m m' a bs x : (forall x, m x = m' x) -> mset m a bs x = mset m' a bs x.
Proof. intros H. unfold mset. rewrite H. reflexivity. Qed.

Lemma mset_tail m a bs w x : mread m a 8 = Some w -> zlen bs <= 8 ->
  mset m a (bs ++ skipn (length bs) w) x = mset m a bs x.
Proof.
  intros Hr Hl. apply mread_spec in Hr. destruct Hr as [L D].
  unfold mset. rewrite zlen_app. pose proof (zlen_nonneg bs).
  assert (Ls : zlen (skipn (length bs) w) = 8 - zlen bs) by (unfold zlen in *; rewrite skipn_length; lia).
  rewrite Ls.
  destruct ((a <=? x) && (x <? a + zlen bs)) eqn:E1.
  - replace ((a <=? x) && (x <? a + (zlen bs + (8 - zlen bs)))) with true by lia.
    f_equal. rewrite app_nth1 by (unfold zlen in *; lia). reflexivity.
  - destruct ((a <=? x) && (x <? a + (zlen bs + (8 - zlen bs)))) eqn:E2; [|reflexivity].
    rewrite (D x) by (unfold in_range; lia). f_equal.
    rewrite app_nth2 by (unfold zlen in *; lia). rewrite nth_skipn. f_equal. unfold zlen in *. lia.
Qed.

Lemma mset_tail_part m a bs w k : mread m a 8 = Some w -> zlen bs <= 8 ->
  exists j, forall x, mset m a (firstn k (bs ++ skipn (length bs) w)) x = mset m a (firstn j bs) x.
Proof.
  intros Hr Hl. destruct (Nat.le_gt_cases k (length bs)) as [C|C].
  - exists k. intros x. rewrite firstn_app. replace (k - length bs)%nat with 0%nat by lia.
    cbn [firstn]. rewrite app_nil_r. reflexivity.
  - exists (length bs). intros x. rewrite firstn_all.
    replace k with (length bs + (k - length bs))%nat by lia. rewrite firstn_app_2.
    apply mread_spec in Hr. destruct Hr as [L D].
    unfold mset. rewrite zlen_app. pose proof (zlen_nonneg bs).
    set (q := firstn (k - length bs) (skipn (length bs) w)).
    assert (Lq : zlen q <= 8 - zlen bs).
    { unfold q, zlen in *. rewrite firstn_length, skipn_length. lia. }
    pose proof (zlen_nonneg q).
    destruct ((a <=? x) && (x <? a + zlen bs)) eqn:E1.
    + replace ((a <=? x) && (x <? a + (zlen bs + zlen q))) with true by lia.
      f_equal. rewrite app_nth1 by (unfold zlen in *; lia). reflexivity.
    + destruct ((a <=? x) && (x <? a + (zlen bs + zlen q))) eqn:E2; [|reflexivity].
      rewrite (D x) by (unfold in_range; lia). f_equal.
      rewrite app_nth2 by (unfold zlen in *; lia). unfold q.
      assert (Hlen : (Z.to_nat (x - a) - length bs < k - length bs)%nat).
      { assert (Hq2 : zlen q <= Z.of_nat (k - length bs)) by (unfold q, zlen; rewrite firstn_length; lia).
        unfold zlen in *. lia. }
      rewrite nth_firstn by exact Hlen. rewrite nth_skipn. f_equal. unfold zlen in *. lia.
Qed.

Lemma write_words_post n : forall a bs s, (n = length bs / 8)%nat -> 0 <= a -> a + zlen bs <= 2 ^ 63 ->
  wpost (sm s) a bs (write_words n a bs s).
Proof.
  induction n as [|n IH]; intros a bs s Hn Ha Hb; cbn [write_words].
  - assert (Hl : zlen bs <= 8).
    { unfold zlen. assert (length bs < 8)%nat by (apply Nat.div_small_iff in Hn || (destruct (Nat.lt_ge_cases (length bs) 8) as [C|C]; [exact C|]; exfalso; pose proof (Nat.div_le_mono 8 (length bs) 8 ltac:(lia) C) as D; rewrite Nat.div_same in D by lia; lia)). lia. }
    destruct bs as [|b r].
    + cbn. intros x. rewrite mset_nil. reflexivity.
    + set (bs := b :: r) in *. unfold bind. unfold peek.
      pose proof (m_read (fun m _ => m = sm s) a 8 s eq_refl) as HR.
      destruct (mem_read a 8 s) as [[tmp| | | |] s1]; try contradiction; cbn in HR.
      * unfold mx in HR. destruct HR as [HR E1].
        cbv beta. pose proof (poke_post a (bs ++ skipn (length bs) tmp) s1) as HP. unfold wpost in *.
        assert (HR' : mread (sm s1) a 8 = Some tmp) by exact E1.
        destruct (poke a (bs ++ skipn (length bs) tmp) s1) as [[u| | | |] s2]; try contradiction.
        -- intros x. rewrite HP. rewrite mset_tail by auto. apply mset_ext. intros; rewrite HR; reflexivity.
        -- destruct HP as [k HP]. destruct (mset_tail_part (sm s1) a bs tmp k HR' Hl) as [j Hj].
           exists j. intros x. rewrite HP, Hj. apply mset_ext. intros; rewrite HR; reflexivity.
        -- destruct HP as [k HP]. destruct (mset_tail_part (sm s1) a bs tmp k HR' Hl) as [j Hj].
           exists j. intros x. rewrite HP, Hj. apply mset_ext. intros; rewrite HR; reflexivity.
      * exists 0%nat. intros x. cbn [firstn]. rewrite mset_nil. unfold mx in HR. rewrite HR. reflexivity.
      * exists 0%nat. intros x. cbn [firstn]. rewrite mset_nil. unfold mx in HR. rewrite HR. reflexivity.
  - assert (Hl : (8 <= length bs)%nat).
    { destruct (Nat.lt_ge_cases (length bs) 8) as [C|C]; [|exact C].
      rewrite Nat.div_small in Hn by exact C. lia. }
    assert (F8 : length (firstn 8 bs) = 8%nat) by (rewrite firstn_length; lia).
    assert (Z8 : zlen (firstn 8 bs) = 8) by (unfold zlen; rewrite F8; reflexivity).
    assert (Hsplit : bs = firstn 8 bs ++ skipn 8 bs) by (symmetry; apply firstn_skipn).
    assert (S8 : zlen (skipn 8 bs) = zlen bs - 8) by (unfold zlen; rewrite skipn_length; lia).
    unfold bind. pose proof (poke_post a (firstn 8 bs) s) as HP. unfold wpost in HP.
    destruct (poke a (firstn 8 bs) s) as [[u| | | |] s1]; try contradiction.
    + rewrite u64_small by (unfold zlen in *; change (2 ^ 63) with 9223372036854775808 in *; change (2 ^ 64) with 18446744073709551616; lia).
      assert (Hn' : n = (length (skipn 8 bs) / 8)%nat).
      { rewrite skipn_length. replace (length bs) with (length bs - 8 + 1 * 8)%nat in Hn by lia.
        rewrite Nat.div_add in Hn by lia. lia. }
      specialize (IH (a + 8) (skipn 8 bs) s1 Hn' ltac:(lia) ltac:(lia)). unfold wpost in *.
      assert (HM : forall cs x, mset (sm s1) (a + 8) cs x = mset (sm s) a (firstn 8 bs ++ cs) x).
      { intros cs x. rewrite <- mset_app. rewrite Z8. apply mset_ext. exact HP. }
      destruct (write_words n (a + 8) (skipn 8 bs) s1) as [[v| | | |] s2]; try contradiction.
      * intros x. rewrite IH, HM, <- Hsplit. reflexivity.
      * destruct IH as [k IH]. exists (8 + k)%nat. intros x. rewrite IH, HM.
        rewrite Hsplit at 3. rewrite <- F8 at 3. rewrite firstn_app_2. reflexivity.
      * destruct IH as [k IH]. exists (8 + k)%nat. intros x. rewrite IH, HM.
        rewrite Hsplit at 3. rewrite <- F8 at 3. rewrite firstn_app_2. reflexivity.
    + destruct HP as [k HP]. exists (min k 8). intros x. rewrite HP. rewrite firstn_firstn. reflexivity.
    + destruct HP as [k HP]. exists (min k 8). intros x. rewrite HP. rewrite firstn_firstn. reflexivity.
Qed.

Lemma mset_holds m m' a bs : (forall x, m' x = mset m a bs x) -> holds_write m a bs m'.
Proof.
  intros H. split.
  - intros k Hk. rewrite H, mset_in by (unfold in_range; lia). f_equal. f_equal. lia.
  - intros x Hx. rewrite H. apply mset_out; auto.
Qed.

Lemma mset_part m m' a bs k : (forall x, m' x = mset m a (firstn k bs) x) -> holds_part m a bs m'.
Proof.
  intros H.
  assert (Hl : zlen (firstn k bs) <= zlen bs) by (unfold zlen; rewrite firstn_length; lia).
  split.
  - intros j Hj. rewrite H. unfold mset.
    destruct ((a <=? a + j) && (a + j <? a + zlen (firstn k bs))) eqn:E; [right|left; reflexivity].
    f_equal. rewrite nth_firstn; [f_equal; lia|]. unfold zlen in E. rewrite firstn_length in E. lia.
  - intros x Hx. rewrite H. apply mset_out. unfold in_range in *. lia.
Qed.

Lemma mem_write_post a bs s : wpost (sm s) a bs (mem_write a bs s).
Proof.
  unfold mem_write. pose proof (pop_mx s) as [E _]. destruct (pop s) as [an s']. cbn [snd] in E.
  unfold pwrite. destruct an as [|k|k]; cbn.
  - destruct (Nat.eqb_spec (maplen (sm s') a (length bs)) (length bs)) as [Q|Q]; cbn.
    + intros x. rewrite Q, firstn_all, E. reflexivity.
    + eexists. intros x. rewrite E. reflexivity.
  - exists (min (maplen (sm s') a (length (firstn k bs))) k). intros x. rewrite firstn_firstn, E. reflexivity.
  - exists (min (maplen (sm s') a (length (firstn k bs))) k). intros x. rewrite firstn_firstn, E. reflexivity.
Qed.

Theorem write_either_path up ei a bs s : 0 <= a -> a + zlen bs <= 2 ^ 63 ->
  match process_mem_write up ei a bs s with
  | (Ret up', s') => up' = (up && negb ei) /\ holds_write (sm s) a bs (sm s')
  | (Err, s') | (Die, s') => holds_part (sm s) a bs (sm s')
  | _ => False
  end.
Proof.
  intros Ha Hb. unfold process_mem_write, bind, mem_write_ptrace.
  pose proof (mem_write_post a bs s) as H1.
  pose proof (write_words_post (length bs / 8) a bs s eq_refl Ha Hb) as H2.
  destruct (up && negb ei); unfold wpost in *.
  - destruct (mem_write a bs s) as [[u| | | |] s']; try contradiction; cbn.
    + split; auto. apply mset_holds; auto.
    + destruct H1 as [k H1]. eapply mset_part; eauto.
    + destruct H1 as [k H1]. eapply mset_part; eauto.
  - destruct (write_words (length bs / 8) a bs s) as [[u| | | |] s']; try contradiction; cbn.
    + split; auto. apply mset_holds; auto.
    + destruct H2 as [k H2]. eapply mset_part; eauto.
    + destruct H2 as [k H2]. eapply mset_part; eauto.
Qed.

Lemma poke_quiet a w s : so s = [] -> mapped (sm s) a (zlen w) ->
  poke a w s = (Ret tt, with_sm s (mset (sm s) a w)).
Proof.
  intros Hs Hm. unfold poke, pop. rewrite Hs. rewrite (pwrite_full _ _ _ Hm). cbn.
  rewrite Nat.eqb_refl. reflexivity.
Qed.

Lemma write_words_quiet n : forall a bs s, (n = length bs / 8)%nat -> 0 <= a -> a + zlen bs <= 2 ^ 63 ->
  so s = [] -> mapped (sm s) a (8 * ((zlen bs + 7) / 8)) ->
  exists s', write_words n a bs s = (Ret tt, s').
Proof.
  induction n as [|n IH]; intros a bs s Hn Ha Hb Hs Hm; cbn [write_words].
  - destruct bs as [|b r]; [exists s; reflexivity|]. set (bs := b :: r) in *.
    assert (Hl : (1 <= length bs < 8)%nat).
    { split; [cbn; lia|]. destruct (Nat.lt_ge_cases (length bs) 8) as [C|C]; [exact C|].
      exfalso; pose proof (Nat.div_le_mono 8 (length bs) 8 ltac:(lia) C) as D; rewrite Nat.div_same in D by lia; lia. }
    assert (Hm8 : mapped (sm s) a 8).
    { replace (8 * ((zlen bs + 7) / 8)) with 8 in Hm by (unfold zlen; lia). exact Hm. }
    destruct (mread_some (sm s) a 8 Hm8) as [w Hw].
    unfold bind, peek, mem_read, pop. rewrite Hs, Hw.
    rewrite poke_quiet; [eexists; reflexivity|exact Hs|].
    replace (zlen (bs ++ skipn (length bs) w)) with 8; [exact Hm8|].
    rewrite zlen_app. unfold zlen. rewrite skipn_length. apply mread_length in Hw. lia.
  - assert (Hl : (8 <= length bs)%nat).
    { destruct (Nat.lt_ge_cases (length bs) 8) as [C|C]; [|exact C].
      rewrite Nat.div_small in Hn by exact C. lia. }
    assert (F8 : length (firstn 8 bs) = 8%nat) by (rewrite firstn_length; lia).
    assert (Z8 : zlen (firstn 8 bs) = 8) by (unfold zlen; rewrite F8; reflexivity).
    assert (S8 : zlen (skipn 8 bs) = zlen bs - 8) by (unfold zlen; rewrite skipn_length; lia).
    assert (Hz : 8 <= zlen bs) by (unfold zlen; lia).
    unfold bind. rewrite poke_quiet; [|exact Hs|].
    2:{ intros x Hx. apply Hm. unfold in_range in *. rewrite Z8 in Hx. lia. }
    rewrite u64_small by (change (2 ^ 63) with 9223372036854775808 in *; change (2 ^ 64) with 18446744073709551616; lia).
    apply IH; try lia.
    + rewrite skipn_length. replace (length bs) with (length bs - 8 + 1 * 8)%nat in Hn by lia.
      rewrite Nat.div_add in Hn by lia. lia.
    + exact Hs.
    + cbn [sm with_sm]. apply mset_mapped. intros x Hx. apply Hm. unfold in_range in *. rewrite S8 in Hx. lia.
Qed.

(** ** The cached reader *)
Theorem peeks_right pg s : so s = [] -> page_ok pg -> forall reqs it,
  iter_ok pg (sm s) it ->
  Forall (fun r => 0 < snd r /\ 0 <= fst r /\ fst r + pg <= 2 ^ 63 /\ mapped (sm s) (fst r) (snd r)) reqs ->
  exists l, peeks pg it reqs s = (l, s) /\
    Forall2 (fun r res => exists bs, res = Some bs /\ mread (sm s) (fst r) (Z.to_nat (snd r)) = Some bs) reqs l.
Proof.
  intros Hs Hpg. induction reqs as [|[a size] r IH]; intros it Hit HF; cbn [peeks].
  - exists []. split; [reflexivity|constructor].
  - inversion HF as [|? ? H1 H2]; subst. cbn [fst snd] in H1. destruct H1 as (A1 & A2 & A3 & A4).
    destruct (Z.le_gt_cases size pg) as [C|C].
    + destruct (peek_spec pg it size a s Hs Hit ltac:(lia) A4 A2 A3) as (it' & bs & E & Hit' & Hr).
      rewrite E. destruct (IH it' Hit' H2) as (l & El & Hl). rewrite El.
      eexists. split; [reflexivity|]. constructor; auto. exists bs. auto.
    + unfold iter_peek. replace (pg <? size) with true by lia.
      destruct (mread_some (sm s) a (Z.to_nat size)) as [bs Hbs].
      { intros x Hx. apply A4. unfold in_range in *. lia. }
      unfold mem_read, pop. rewrite Hs, Hbs.
      destruct (IH it Hit H2) as (l & El & Hl). rewrite El.
      eexists. split; [reflexivity|]. constructor; auto. exists bs. auto.
Qed.
