(** Lemmas about gaps and places for patches. *)
From Coq Require Import ZArith List Bool Lia ZifyBool ZifyNat Sorted.
From Verif Require Import Base BaseProofs HoleModel HoleSpec.
Import ListNotations.
Open Scope Z_scope.
Ltac Zify.zify_post_hook ::= idtac.

Lemma page_facts pg : page_ok pg -> 4096 <= pg <= 65536.
Proof.
  intros (k & Hk & ->). change 4096 with (2 ^ 12). change 65536 with (2 ^ 16).
  split; apply Z.pow_le_mono_r; lia.
Qed.

Lemma page_down pg x : page_ok pg -> 0 <= x < 2 ^ 64 -> x mod pg = 0 ->
  Z.shiftl (Z.shiftr x (Z.log2 pg)) (Z.log2 pg) = x.
Proof.
  intros (k & Hk & ->) Hx Hm. rewrite Z.log2_pow2 by lia.
  rewrite Z.shiftr_div_pow2, Z.shiftl_mul_pow2 by lia.
  assert (0 < 2 ^ k) by (apply Z.pow_pos_nonneg; lia).
  rewrite (Z.div_mod x (2 ^ k)) at 2 by lia. lia.
Qed.

Lemma page_down_mod pg x : page_ok pg ->
  (Z.shiftl (Z.shiftr x (Z.log2 pg)) (Z.log2 pg)) mod pg = 0.
Proof.
  intros (k & Hk & ->). rewrite Z.log2_pow2 by lia.
  rewrite Z.shiftl_mul_pow2 by lia. apply Z.mod_mul.
  assert (0 < 2 ^ k) by (apply Z.pow_pos_nonneg; lia). lia.
Qed.

Lemma rd_same pg x : page_ok pg -> 0 <= x < 2 ^ 64 -> x mod pg = 0 -> round_down x pg = x.
Proof.
  intros (k & Hk & ->) Hx Hm. rewrite round_down_spec by lia.
  assert (0 < 2 ^ k) by (apply Z.pow_pos_nonneg; lia).
  rewrite (Z.div_mod x (2 ^ k)) at 2 by lia. lia.
Qed.

Lemma ru_same pg x : page_ok pg -> 0 <= x -> x + pg < 2 ^ 64 -> x mod pg = 0 -> round_up x pg = x.
Proof.
  intros (k & Hk & ->) Hx Hp Hm. apply round_up_idem; lia.
Qed.

Lemma mod_add0 pg a b : a mod pg = 0 -> b mod pg = 0 -> 0 < pg -> (a + b) mod pg = 0.
Proof. intros Ha Hb Hp. rewrite Z.add_mod, Ha, Hb by lia. rewrite Z.add_0_l. apply Z.mod_0_l. lia. Qed.
Lemma mod_sub0 pg a b : a mod pg = 0 -> b mod pg = 0 -> 0 < pg -> (a - b) mod pg = 0.
Proof. intros Ha Hb Hp. rewrite Zminus_mod, Ha, Hb. apply Z.mod_0_l. lia. Qed.

(** ** C12: the gaps of a memory map *)

Lemma maps_ok_weaken pg lo lo' maps : lo' <= lo -> maps_ok pg lo maps -> maps_ok pg lo' maps.
Proof. destruct maps as [|[s e] r]; cbn; intuition lia. Qed.

Lemma maps_ok_above pg lo maps s e : maps_ok pg lo maps -> In (s, e) maps -> lo <= s /\ s < e.
Proof.
  revert lo. induction maps as [|[s0 e0] r IH]; intros lo H Hi; [destruct Hi|].
  cbn in H. destruct H as (H1 & H2 & H3 & H4 & H5 & H6). destruct Hi as [E|Hi].
  - injection E as -> ->. lia.
  - specialize (IH e0 H6 Hi). lia.
Qed.

Lemma gaps_exact pg maps : 0 < pg -> forall lo n x, 0 <= lo -> lo + pg < 2 ^ 64 -> maps_ok pg lo maps ->
  (exists h, In h (gaps pg lo n maps) /\ in_hole h x) <->
  (lo + pg <= x /\ (exists s e, In (s, e) maps /\ x + pg < s) /\
   forall y, x - pg <= y <= x + pg -> unmapped maps y).
Proof.
  intros Hpg. induction maps as [|[s e] r IH]; intros lo n x Hlo Hlo64 Hm.
  { cbn. split; [intros (h & [] & _)|intros (_ & (s & e & [] & _) & _)]. }
  cbn in Hm. destruct Hm as (H1 & H2 & H3 & H4 & H5 & H6).
  assert (HT : (exists h, In h (gaps pg e (S n) r) /\ in_hole h x) <->
               (exists h, In h (gaps pg e n r) /\ in_hole h x)).
  { rewrite (IH e (S n) x), (IH e n x) by lia || auto. reflexivity. }
  specialize (IH e n x ltac:(lia) ltac:(lia) H6).
  assert (HS : (lo + pg <= x /\ (exists s0 e0, In (s0, e0) ((s, e) :: r) /\ x + pg < s0) /\
                (forall y, x - pg <= y <= x + pg -> unmapped ((s, e) :: r) y)) <->
     (lo + pg <= x /\ x + pg < s) \/
     (e + pg <= x /\ (exists s0 e0, In (s0, e0) r /\ x + pg < s0) /\
      (forall y, x - pg <= y <= x + pg -> unmapped r y))).
  { split.
    - intros (A1 & (s0 & e0 & A2 & A3) & A4).
      destruct (Z.lt_ge_cases (x + pg) s) as [L|L]; [left; lia|right].
      assert (B : e <= x - pg).
      { destruct (Z.le_gt_cases e (x - pg)) as [|G]; [assumption|exfalso].
        apply (A4 (Z.max s (x - pg)) ltac:(lia) s e (or_introl eq_refl)). lia. }
      split; [lia|]. split.
      + destruct A2 as [E|A2]; [injection E as -> ->; lia|]. exists s0, e0. auto.
      + intros y Hy s1 e1 Hin. apply (A4 y Hy s1 e1). right. exact Hin.
    - intros [(A1 & A2)|(A1 & (s0 & e0 & A2 & A3) & A4)].
      + split; [lia|]. split; [exists s, e; split; [left; reflexivity|lia]|].
        intros y Hy s1 e1 [E|Hin].
        * injection E as <- <-. lia.
        * pose proof (maps_ok_above pg e r s1 e1 H6 Hin). lia.
      + split; [lia|]. split; [exists s0, e0; split; [right; exact A2|lia]|].
        intros y Hy s1 e1 [E|Hin].
        * injection E as <- <-. lia.
        * apply (A4 y Hy s1 e1 Hin). }
  rewrite HS. rewrite <- IH. cbn [gaps]. rewrite (u64_small (s - lo)) by lia.
  destruct (2 * pg <? s - lo) eqn:E.
  - rewrite !u64_small by lia. split.
    + intros (h & [<-|Hi] & Hx); [left; unfold in_hole in Hx; cbn in Hx; lia|].
      right. apply HT. exists h. auto.
    + intros [HA|HB].
      * exists {| hid := n; hs := lo + pg; he := s - pg |}. split; [left; reflexivity|unfold in_hole; cbn; lia].
      * apply HT in HB. destruct HB as (h & Hi & Hx). exists h. split; [right; exact Hi|exact Hx].
  - split; [intros HA; right; exact HA|intros [HA|HB]; [lia|exact HB]].
Qed.

Lemma holes_sorted_weaken pg lo lo' l : lo' <= lo -> holes_sorted pg lo l -> holes_sorted pg lo' l.
Proof. destruct l; cbn; intuition lia. Qed.

Lemma gaps_sorted pg maps : page_ok pg -> forall lo n, 0 <= lo -> lo mod pg = 0 -> lo + pg < 2 ^ 64 -> maps_ok pg lo maps ->
  holes_sorted pg (lo + pg) (gaps pg lo n maps).
Proof.
  intros Hpg. pose proof (page_facts pg Hpg) as Hpf.
  induction maps as [|[s e] r IH]; intros lo n H0 Hlm H64 Hm; [exact I|].
  cbn in Hm. destruct Hm as (H1 & H2 & H3 & H4 & H5 & H6). cbn [gaps].
  rewrite (u64_small (s - lo)) by lia.
  assert (IH' : forall k, holes_sorted pg (e + pg) (gaps pg e k r)) by (intros; apply IH; auto; lia).
  destruct (2 * pg <? s - lo) eqn:E.
  - rewrite !u64_small by lia. cbn [holes_sorted hs he].
    assert (Hpp : pg mod pg = 0) by (apply Z.mod_same; lia).
    assert (Hse : s + pg <= e).
    { assert (Hd : (e - s) mod pg = 0) by (apply mod_sub0; auto; lia).
      destruct (Z.lt_ge_cases (e - s) pg) as [L|L]; [|lia]. rewrite Z.mod_small in Hd by lia. lia. }
    split; [lia|]. split; [lia|]. split; [destruct (_ =? _); lia|].
    split; [apply mod_add0; auto; lia|]. split; [apply mod_sub0; auto; lia|].
    eapply holes_sorted_weaken; [|apply IH']. destruct (_ =? _); lia.
  - eapply holes_sorted_weaken; [|apply IH']. lia.
Qed.

Lemma gaps_ids pg maps : forall lo n h, In h (gaps pg lo n maps) -> (n <= hid h < n + length maps)%nat.
Proof.
  induction maps as [|[s e] r IH]; intros lo n h Hi; [destruct Hi|]. cbn [gaps length] in *.
  destruct (2 * pg <? u64 (s - lo)).
  - destruct Hi as [<-|Hi]; [cbn; lia|]. apply IH in Hi. lia.
  - apply IH in Hi. lia.
Qed.

Lemma gaps_nodup pg maps : forall lo n, NoDup (map hid (gaps pg lo n maps)).
Proof.
  induction maps as [|[s e] r IH]; intros lo n; [constructor|]. cbn [gaps].
  destruct (2 * pg <? u64 (s - lo)); [|apply IH]. cbn. constructor; [|apply IH].
  intros Hi. apply in_map_iff in Hi. destruct Hi as (h & E & Hi). apply gaps_ids in Hi. lia.
Qed.

Lemma start_space_ok pg maps : page_ok pg -> maps_ok pg 0 maps -> space_ok pg (start_space pg maps).
Proof.
  intros Hpg Hm. pose proof (page_facts pg Hpg). unfold start_space. split; cbn [sp_holes sp_fresh sp_used].
  - apply (gaps_sorted pg maps Hpg 0 0); auto; try lia.
  - apply gaps_nodup.
  - intros h Hi. apply gaps_ids in Hi. lia.
  - intros h x y Hi Hx Hy.
    apply (gaps_exact pg maps ltac:(lia) 0 0%nat x) in Hm; try lia.
    destruct Hm as [Hm _]. destruct Hm as (_ & _ & Hm); [exists h; auto|]. apply Hm. exact Hy.
Qed.

(** ** C13: the search *)

Lemma around_spec id l : forall before b p r, around before id l = Some (b, p, r) ->
  exists c, l = c ++ p :: r /\ b = rev c ++ before /\ hid p = id /\ forall h, In h c -> hid h <> id.
Proof.
  induction l as [|h l IH]; intros before b p r H; [discriminate|]. cbn in H.
  destruct (Nat.eqb (hid h) id) eqn:E.
  - injection H as <- <- <-. exists []. apply Nat.eqb_eq in E. repeat split; auto.
  - apply IH in H. destruct H as (c & -> & -> & H1 & H2). exists (h :: c).
    split; [reflexivity|]. split; [cbn; rewrite <- app_assoc; reflexivity|]. split; [exact H1|].
    intros h0 [<-|Hi]; [apply Nat.eqb_neq; exact E|auto].
Qed.

Lemma around_unique l1 p1 r1 l2 p2 r2 : l1 ++ p1 :: r1 = l2 ++ p2 :: r2 ->
  NoDup (map hid (l1 ++ p1 :: r1)) -> hid p1 = hid p2 -> l1 = l2 /\ p1 = p2 /\ r1 = r2.
Proof.
  revert l2. induction l1 as [|h l1 IH]; intros l2 E Hnd Hid; destruct l2 as [|h2 l2]; cbn in *.
  - injection E as -> ->. auto.
  - injection E as -> ->. exfalso. inversion Hnd as [|? ? Hn _]; subst. apply Hn.
    rewrite map_app, in_app_iff. right. cbn. left. congruence.
  - injection E as -> E. subst. exfalso. inversion Hnd as [|? ? Hn _]; subst. apply Hn.
    rewrite map_app, in_app_iff. right. left. congruence.
  - injection E as -> E. inversion Hnd; subst. destruct (IH l2 E) as (-> & -> & ->); auto.
Qed.

Lemma sorted_facts pg lo l h : 0 < pg -> holes_sorted pg lo l -> In h l ->
  lo <= hs h /\ hs h <= he h /\ (if he h =? hs h then he h else he h + pg) + pg < 2 ^ 64 /\
  hs h mod pg = 0 /\ he h mod pg = 0.
Proof.
  intros Hpg. revert lo. induction l as [|a l IH]; intros lo H Hi; [destruct Hi|].
  cbn in H. destruct H as (H1 & H2 & H3 & H4 & H5 & H6). destruct Hi as [<-|Hi]; [auto|].
  specialize (IH _ H6 Hi). destruct (_ =? _); lia.
Qed.

Definition edge pg (h : hole) : Z := if he h =? hs h then he h else he h + pg.

Lemma sorted_app pg l1 l2 : 0 < pg -> forall lo, holes_sorted pg lo (l1 ++ l2) <->
  holes_sorted pg lo l1 /\ (exists lo', lo <= lo' /\ (forall h, In h l1 -> edge pg h <= lo') /\ holes_sorted pg lo' l2).
Proof.
  intros Hpg. induction l1 as [|a l1 IH]; intros lo; cbn [app holes_sorted].
  - split; [intros H; split; [exact I|exists lo; repeat split; auto; [lia|intros h []]]|].
    intros (_ & lo' & H1 & _ & H2). eapply holes_sorted_weaken; eauto.
  - fold (edge pg a). rewrite IH. split.
    + intros (H1 & H2 & H3 & H4 & H5 & H6 & lo' & H7 & H8 & H9). repeat split; auto.
      exists lo'. unfold edge in H7. repeat split; auto; [destruct (_ =? _); lia|].
      intros h [<-|Hi]; [unfold edge; exact H7|auto].
    + intros ((H1 & H2 & H3 & H4 & H5 & H6) & lo' & H7 & H8 & H9). repeat split; auto.
      exists lo'. repeat split; auto. apply H8. left. reflexivity. intros h Hi. apply H8. right. exact Hi.
Qed.

Lemma sorted_before pg lo l p r h : 0 < pg -> holes_sorted pg lo (l ++ p :: r) -> In h l -> edge pg h <= hs p.
Proof.
  intros Hpg H Hi. apply sorted_app in H; [|exact Hpg]. destruct H as (_ & lo' & _ & H1 & H2).
  specialize (H1 h Hi). cbn in H2. lia.
Qed.

Lemma sorted_after pg lo l p r h : 0 < pg -> holes_sorted pg lo (l ++ p :: r) -> In h r -> edge pg p <= hs h.
Proof.
  intros Hpg H Hi. apply sorted_app in H; [|exact Hpg]. destruct H as (_ & lo' & _ & H1 & H2).
  cbn in H2. destruct H2 as (_ & _ & _ & _ & _ & H2). fold (edge pg p) in H2.
  apply (sorted_facts pg _ _ h Hpg) in H2; auto. lia.
Qed.

(** lia without the divisibility facts. *)
Ltac zl := repeat match goal with H : _ mod _ = _ |- _ => clear H | H : forall _, _ |- _ => clear H | H : u64 _ = _ |- _ => clear H end; lia.

Lemma aligned_lt pg x y : 0 < pg -> x mod pg = 0 -> y mod pg = 0 -> x < y -> x + pg <= y.
Proof.
  intros Hp Hx Hy Hl. apply Z.mod_divide in Hx, Hy; try lia. destruct Hx as [a ->], Hy as [b ->].
  assert (a + 1 <= b) by nia. nia.
Qed.

Section Walk.
Variables pg D os oe sz : Z.
Hypothesis Hpg : page_ok pg.
Hypothesis Hsz : size_ok pg D sz.
Hypothesis Hobj1 : 0 <= os /\ os < oe /\ oe < 2 ^ 64 /\ oe - os <= D.
Hypothesis Hobj2 : os mod pg = 0 /\ oe mod pg = 0.

Definition hole_fine (h : hole) : Prop :=
  pg <= hs h /\ hs h <= he h /\ he h + pg < 2 ^ 64 /\ hs h mod pg = 0 /\ he h mod pg = 0.

(** What the search returns.  On the left, the start may be cut off at the limit. *)
Definition good (rs : Z) (h : hole) : Prop :=
  hs h <= rs /\ rs mod pg = 0 /\ rs < 2 ^ 64 /\ hs h < he h /\
  ((os <= hs h /\ rs = hs h /\ rs + sz < he h /\ rs + sz - os <= D - pg) \/
   (he h + pg <= oe /\ oe - rs <= D - sz /\ oe - he h <= D - sz /\
     (rs = hs h /\ rs + sz < he h \/ rs = oe - (D - sz)))).

Lemma walk_good L R rs re h :
  (forall h, In h L -> hole_fine h /\ he h <= oe /\ (hs h < he h -> he h + pg <= oe)) ->
  (forall h, In h R -> hole_fine h /\ os <= hs h) ->
  walk (u64 (D - sz)) os oe sz L R = Some (rs, re, h) -> rs <> re -> good rs h /\ (In h L \/ In h R).
Proof.
  destruct Hsz as (Z1 & Z2 & Z3 & Z4). destruct Hobj2 as [O1 O2]. rewrite u64_small by (clear - Z3 Z4; lia).
  pose proof (page_facts pg Hpg) as Hp.
  revert R. induction L as [|l L IH]; intros R HL HR HW HN; [destruct R; discriminate|].
  destruct R as [|r R]; [discriminate|]. cbn [walk] in HW.
  destruct (HL l (or_introl eq_refl)) as ((L1 & L2 & L3 & L4 & L5) & L6 & L7).
  destruct (HR r (or_introl eq_refl)) as ((R1 & R2 & R3 & R4 & R5) & R6).
  unfold hole_size in HW.
  assert (U1 : u64 (hs r - os) = hs r - os) by (clear - L1 L2 L3 L6 R1 R2 R3 R6 Hobj1 Hp; apply u64_small; lia).
  assert (U2 : u64 (he r - hs r) = he r - hs r) by (clear - L1 L2 L3 L6 R1 R2 R3 R6 Hobj1 Hp; apply u64_small; lia).
  assert (U3 : u64 (oe - he l) = oe - he l) by (clear - L1 L2 L3 L6 R1 R2 R3 R6 Hobj1 Hp; apply u64_small; lia).
  assert (U4 : u64 (he l - hs l) = he l - hs l) by (clear - L1 L2 L3 L6 R1 R2 R3 R6 Hobj1 Hp; apply u64_small; lia).
  assert (U5 : u64 (oe - hs l) = oe - hs l) by (clear - L1 L2 L3 L6 R1 R2 R3 R6 Hobj1 Hp; apply u64_small; lia).
  rewrite U1, U2, U3, U4, U5 in HW.
  assert (HD : (D - sz) mod pg = 0) by (apply mod_sub0; auto; lia).
  destruct (negb (D - sz <? hs r - os) && (sz <? he r - hs r)) eqn:E1.
  - injection HW as <- Ere <-. split; [|right; left; reflexivity].
    unfold good. split; [zl|]. split; [exact R4|]. split; [zl|]. split; [zl|]. left.
    split; [zl|]. split; [reflexivity|]. split; [zl|].
    assert (Hst : hs r + sz + pg <= he r).
    { apply aligned_lt; auto; [zl| |zl]. apply mod_add0; auto; zl. }
    assert (U6 : u64 (he r - os) = he r - os) by (apply u64_small; zl). rewrite U6 in Ere.
    destruct (he r - os <=? D - sz) eqn:E4.
    + zl.
    + rewrite u64_small in Ere by zl.
      assert (Hst2 : hs r + pg <= os + (D - sz)); [|zl].
      apply aligned_lt; auto; [zl| |zl]. apply mod_add0; auto; zl.
  - destruct (D - sz <? oe - he l) eqn:E2; [discriminate|].
    destruct (sz <? he l - hs l) eqn:E3.
    + assert (Hd : (rs, h) = (if oe - hs l <=? D - sz then hs l
                    else if D - sz <? oe then u64 (oe - (D - sz)) else 0, l)) by congruence.
      clear HW. injection Hd as -> ->. split; [|left; left; reflexivity].
      unfold good. destruct (oe - hs l <=? D - sz) eqn:E4.
      * split; [zl|]. split; [exact L4|]. split; [zl|]. split; [zl|]. right.
        specialize (L7 ltac:(zl)). split; [zl|]. split; [zl|]. split; [zl|]. left. zl.
      * destruct (D - sz <? oe) eqn:E5; [|zl]. rewrite u64_small by zl.
        split; [zl|]. split; [apply mod_sub0; auto; lia|]. split; [zl|]. split; [zl|]. right.
        specialize (L7 ltac:(zl)). split; [zl|]. split; [zl|]. split; [zl|]. right. zl.
    + destruct (IH (if D - sz <? hs r - os then [] else R)) as [HG HI].
      * intros h0 Hi. apply HL. right. exact Hi.
      * intros h0 Hi. destruct (D - sz <? hs r - os); [destruct Hi|]. apply HR. right. exact Hi.
      * exact HW.
      * exact HN.
      * split; [exact HG|]. destruct HI as [HI|HI]; [left; right; exact HI|right].
        destruct (D - sz <? hs r - os); [destruct HI|right; exact HI].
Qed.
End Walk.

Lemma sorted_fine pg l h : 0 < pg -> holes_sorted pg pg l -> In h l -> hole_fine pg h.
Proof.
  intros Hp H Hi. destruct (sorted_facts pg pg l h Hp H Hi) as (Q1 & Q2 & Q3 & Q4 & Q5).
  unfold hole_fine. destruct (he h =? hs h); repeat split; auto; zl.
Qed.

Definition fits (D os oe sz a : Z) (h : hole) : Prop :=
  hs h <= a /\ a + sz <= he h.
Definition reach (pg D os oe sz a : Z) : Prop :=
  forall x y, a <= x < a + sz -> os <= y <= oe -> - D <= x - y < D - pg.

Lemma find_good pg D holes prev os oe sz a h :
  page_ok pg -> size_ok pg D sz -> holes_sorted pg pg holes -> NoDup (map hid holes) ->
  object_ok pg D holes prev os oe ->
  find_region pg D holes prev os oe sz = (a, h) -> a mod pg = 0 ->
  exists h', h = Some h' /\ In h' holes /\ pg <= a /\ a mod pg = 0 /\ hs h' < he h' /\ good pg D os oe sz a h'.
Proof.
  intros Hpg Hsz Hso Hnd (Hob & Hpr) HF Ha.
  pose proof (page_facts pg Hpg) as Hp.
  assert (Hm1 : (2 ^ 64 - 1) mod pg <> 0).
  { destruct Hpg as (k & Hk & ->). intros C.
    assert (2 ^ 64 = 2 ^ k * 2 ^ (64 - k)) as E by (rewrite <- Z.pow_add_r by zl; f_equal; zl).
    assert (0 < 2 ^ k) by (apply Z.pow_pos_nonneg; zl).
    rewrite E in C. replace (2 ^ k * 2 ^ (64 - k) - 1) with ((2 ^ k - 1) + (2 ^ (64 - k) - 1) * 2 ^ k) in C by zl.
    rewrite Z.mod_add, Z.mod_small in C by zl. zl. }
  unfold find_region in HF. destruct prev as [id|]; [|injection HF as <- _; contradiction].
  destruct (around [] id holes) as [[[b p] r]|] eqn:EA; [|injection HF as <- _; contradiction].
  apply around_spec in EA. destruct EA as (c & E1 & E2 & E3 & E4). rewrite app_nil_r in E2. subst b.
  destruct (Hpr id eq_refl) as (l & p' & r' & F1 & F2 & F3 & F4).
  subst holes. destruct (around_unique c p r l p' r' F1 Hnd ltac:(congruence)) as (<- & <- & <-).
  destruct (walk (u64 (D - sz)) os oe sz (p :: rev c) r) as [[[rs re] h0]|] eqn:EW;
    [|injection HF as <- _; contradiction].
  assert (Hfine : forall h, In h (c ++ p :: r) -> hole_fine pg h).
  { intros h1 Hi. apply (sorted_facts pg pg _ h1 ltac:(zl) Hso) in Hi. unfold hole_fine.
    destruct Hi as (Q1 & Q2 & Q3 & Q4 & Q5). destruct (he h1 =? hs h1); repeat split; auto; zl. }
  destruct (rs =? re) eqn:Ern; [injection HF as <- _; contradiction|].
  apply (walk_good pg D os oe sz Hpg Hsz ltac:(intuition) ltac:(intuition)) in EW; [| | |zl].
  - destruct EW as [HG HI]. injection HF as <- <-.
    assert (Hh : In h0 (c ++ p :: r)).
    { rewrite in_app_iff. destruct HI as [[<-|HI]|HI]; [right; left; reflexivity|left; apply in_rev; exact HI|right; right; exact HI]. }
    pose proof (Hfine h0 Hh) as (A1 & A2 & A3 & A4 & A5).
    destruct HG as (G1 & G2 & G3 & G4 & G5).
    rewrite page_down by (auto; zl).
    exists h0. repeat split; auto; zl.
  - intros h1 [<-|Hi].
    + split; [apply Hfine; rewrite in_app_iff; right; left; reflexivity|].
      pose proof (Hfine p ltac:(rewrite in_app_iff; right; left; reflexivity)) as (_ & HC & _).
      destruct (he p =? hs p) eqn:Ep; zl.
    + apply in_rev in Hi. split; [apply Hfine; rewrite in_app_iff; auto|].
      pose proof (sorted_before pg pg c p r h1 ltac:(zl) Hso Hi) as HB.
      pose proof (Hfine p ltac:(rewrite in_app_iff; right; left; reflexivity)) as (_ & HC & _).
      unfold edge in HB. destruct (he h1 =? hs h1) eqn:Eh; destruct (he p =? hs p) eqn:Ep; zl.
  - intros h1 Hi. split; [apply Hfine; rewrite in_app_iff; right; right; exact Hi|apply F4; exact Hi].
Qed.

Lemma find_inside pg D holes prev os oe sz a h :
  page_ok pg -> size_ok pg D sz -> holes_sorted pg pg holes -> NoDup (map hid holes) ->
  object_ok pg D holes prev os oe -> edge_clear D holes oe sz ->
  find_region pg D holes prev os oe sz = (a, h) -> a mod pg = 0 ->
  exists h', h = Some h' /\ In h' holes /\ hs h' <= a /\ a + sz <= he h' /\ hs h' < he h'.
Proof.
  intros Hpg Hsz Hso Hnd Hob Hedge HF Ha.
  destruct (find_good _ _ _ _ _ _ _ _ _ Hpg Hsz Hso Hnd Hob HF Ha) as (h' & -> & Hi & H1 & H2 & H3 & HG).
  exists h'. destruct HG as (G1 & G2 & G3 & G4 & [G5|(G5 & G6 & G7 & [G8|G8])]).
  - repeat split; auto; zl.
  - repeat split; auto; zl.
  - pose proof (page_facts pg Hpg) as Hp. specialize (Hedge h' Hi H3 ltac:(zl) G7). repeat split; auto; zl.
Qed.

Lemma find_reach pg D holes prev os oe sz a h :
  page_ok pg -> size_ok pg D sz -> holes_sorted pg pg holes -> NoDup (map hid holes) ->
  object_ok pg D holes prev os oe -> edge_clear D holes oe sz ->
  find_region pg D holes prev os oe sz = (a, h) -> a mod pg = 0 -> reach pg D os oe sz a.
Proof.
  intros Hpg Hsz Hso Hnd Hob Hedge HF Ha.
  destruct (find_good _ _ _ _ _ _ _ _ _ Hpg Hsz Hso Hnd Hob HF Ha) as (h' & -> & Hi & H1 & H2 & H3 & HG).
  pose proof (page_facts pg Hpg) as Hp. specialize (Hedge h' Hi H3). destruct Hob as (Ho & _). destruct Hsz as (Z1 & Z2 & Z3 & Z4).
  intros x y Hx Hy. destruct HG as (G1 & G2 & G3 & G4 & [G5|(G5 & G6 & G7 & [G8|G8])]); try zl.
  specialize (Hedge ltac:(zl) G7). zl.
Qed.

(** ** C15: successive placements *)

Lemma split_spec pg n h a b : page_ok pg -> 0 < pg -> pg <= hs h -> hs h <= a -> a < b -> b <= he h ->
  he h + pg < 2 ^ 64 -> a mod pg = 0 -> b mod pg = 0 ->
  split_hole pg n h a b =
  (if hs h <? a - pg then [{| hid := n; hs := hs h; he := a - pg |}] else [])
  ++ [{| hid := hid h; hs := b + pg; he := Z.max (he h) (b + pg) |}].
Proof.
  intros Hpg Hp H1 H2 H3 H4 H5 H6 H7. unfold split_hole.
  rewrite (rd_same pg a), (ru_same pg b) by (auto; zl). rewrite !u64_small by zl.
  assert (E : (if b + pg <? he h then he h else b + pg) = Z.max (he h) (b + pg)) by (destruct (_ <? _) eqn:E; zl).
  rewrite E. reflexivity.
Qed.

Lemma replace_app id new l1 h l2 : hid h = id -> NoDup (map hid (l1 ++ h :: l2)) ->
  replace_hole id new (l1 ++ h :: l2) = l1 ++ new ++ l2.
Proof.
  intros Hid Hnd. unfold replace_hole. rewrite flat_map_app. cbn. rewrite Hid, Nat.eqb_refl.
  assert (HN : forall l, (forall x, In x l -> hid x <> id) ->
    flat_map (fun h0 => if Nat.eqb (hid h0) id then new else [h0]) l = l).
  { induction l as [|x l IH]; intros Hx; [reflexivity|]. cbn.
    destruct (Nat.eqb (hid x) id) eqn:E; [apply Nat.eqb_eq in E; exfalso; apply (Hx x); [left; reflexivity|exact E]|].
    cbn. f_equal. apply IH. intros y Hy. apply Hx. right. exact Hy. }
  rewrite map_app in Hnd. cbn in Hnd. apply NoDup_remove_2 in Hnd. rewrite in_app_iff in Hnd.
  f_equal; [|f_equal]; apply HN; intros x Hx C; apply Hnd; [left|right]; rewrite Hid, <- C; apply in_map; exact Hx.
Qed.

Lemma unmapped_cons s e used y : unmapped used y -> ~ (s <= y < e) -> unmapped ((s, e) :: used) y.
Proof. intros H1 H2 s' e' [E|Hi]; [injection E as <- <-; exact H2|apply (H1 s' e' Hi)]. Qed.

Section Place.
Variables pg D : Z.
Hypothesis Hpg : page_ok pg.

Lemma place_cases sp r res sp' : space_ok pg sp -> size_ok pg D (rq_sz r) ->
  object_ok pg D (sp_holes sp) (rq_prev r) (rq_os r) (rq_oe r) ->
  edge_clear D (sp_holes sp) (rq_oe r) (rq_sz r) -> place pg D sp r = (res, sp') ->
  (res = None /\ sp' = sp) \/
  exists a h l1 l2, res = Some a /\ sp_holes sp = l1 ++ h :: l2 /\ a mod pg = 0 /\
    hs h <= a /\ a + rq_sz r <= he h /\ hs h < he h /\ reach pg D (rq_os r) (rq_oe r) (rq_sz r) a /\
    sp' = {| sp_holes := l1 ++ ((if hs h <? a - pg then [{| hid := sp_fresh sp; hs := hs h; he := a - pg |}] else [])
                 ++ [{| hid := hid h; hs := a + rq_sz r + pg; he := Z.max (he h) (a + rq_sz r + pg) |}]) ++ l2;
             sp_fresh := S (sp_fresh sp); sp_used := (a, a + rq_sz r) :: sp_used sp |}.
Proof.
  intros [S1 S2 S3 S4] Hsz Hob Hedge HP. unfold place in HP.
  destruct (find_region pg D (sp_holes sp) (rq_prev r) (rq_os r) (rq_oe r) (rq_sz r)) as [a h] eqn:EF.
  destruct (a =? 0) eqn:E0; [injection HP as <- <-; auto|].
  destruct (negb (rq_mmap_ok r && (a mod pg =? 0))) eqn:E1; [injection HP as <- <-; auto|].
  assert (Ha : a mod pg = 0) by (destruct (rq_mmap_ok r); cbn in E1; zl).
  pose proof (find_reach _ _ _ _ _ _ _ _ _ Hpg Hsz S1 S2 Hob Hedge EF Ha) as Hreach.
  destruct (find_inside _ _ _ _ _ _ _ _ _ Hpg Hsz S1 S2 Hob Hedge EF Ha) as (h' & -> & Hi & H1 & H2 & H3).
  injection HP as <- <-. right.
  apply in_split in Hi. destruct Hi as (l1 & l2 & El). exists a, h', l1, l2.
  pose proof (page_facts pg Hpg) as Hp. destruct Hsz as (Z1 & Z2 & Z3 & Z4).
  pose proof (sorted_fine pg _ h' ltac:(zl) S1 ltac:(rewrite El, in_app_iff; right; left; reflexivity)) as (F1 & F2 & F3 & F4 & F5).
  rewrite (u64_small (a + rq_sz r)) by zl.
  assert (Hab : (a + rq_sz r) mod pg = 0) by (apply mod_add0; auto; zl).
  rewrite (split_spec pg (sp_fresh sp) h' a (a + rq_sz r)) by (auto; zl).
  rewrite El in S2 |- *. rewrite (replace_app (hid h') _ l1 h' l2 eq_refl S2).
  split; [reflexivity|]. split; [reflexivity|]. split; [exact Ha|]. split; [exact H1|]. split; [exact H2|].
  split; [exact H3|]. split; [exact Hreach|]. reflexivity.
Qed.

Lemma place_ok sp r res sp' : space_ok pg sp -> size_ok pg D (rq_sz r) ->
  object_ok pg D (sp_holes sp) (rq_prev r) (rq_os r) (rq_oe r) ->
  edge_clear D (sp_holes sp) (rq_oe r) (rq_sz r) -> place pg D sp r = (res, sp') -> space_ok pg sp'.
Proof.
  intros SO Hsz Hob Hedge HP.
  destruct (place_cases _ _ _ _ SO Hsz Hob Hedge HP) as [[_ ->]|(a & h & l1 & l2 & _ & El & Ha & H1 & H2 & H3 & _ & ->)];
    [exact SO|].
  destruct SO as [S1 S2 S3 S4]. destruct Hsz as (Z1 & Z2 & Z3 & Z4).
  pose proof (page_facts pg Hpg) as Hp. rewrite El in *.
  assert (Hpp : pg mod pg = 0) by (apply Z.mod_same; zl).
  assert (Hhin : In h (l1 ++ h :: l2)) by (rewrite in_app_iff; right; left; reflexivity).
  pose proof (sorted_fine pg _ h ltac:(zl) S1 Hhin) as (F1 & F2 & F3 & F4 & F5).
  assert (Hab : (a + rq_sz r) mod pg = 0) by (apply mod_add0; auto; zl).
  assert (Hab' : (a + rq_sz r + pg) mod pg = 0) by (apply mod_add0; auto; zl).
  assert (Hmax : Z.max (he h) (a + rq_sz r + pg) mod pg = 0).
  { destruct (Z.max_spec (he h) (a + rq_sz r + pg)) as [[_ ->]|[_ ->]]; [exact Hab'|exact F5]. }
  assert (B1 : forall g, In g l1 -> edge pg g <= hs h) by (intros; eapply sorted_before; eauto; zl).
  assert (B2 : forall g, In g l2 -> he h + pg <= hs g).
  { intros g Hg. pose proof (sorted_after pg pg l1 h l2 g ltac:(zl) S1 Hg) as HA. unfold edge in HA.
    destruct (he h =? hs h) eqn:E; zl. }
  split; cbn [sp_holes sp_fresh sp_used].
  - apply sorted_app in S1; [|zl]. destruct S1 as (S1a & lo' & S1b & S1c & S1d).
    cbn [holes_sorted] in S1d. destruct S1d as (D1 & D2 & D3 & D4 & D5 & D6).
    rewrite (proj2 (Z.eqb_neq (he h) (hs h))) in D6 by zl.
    apply sorted_app; [zl|]. split; [exact S1a|]. exists lo'. split; [exact S1b|]. split; [exact S1c|].
    rewrite (proj2 (Z.eqb_neq (he h) (hs h))) in D3 by zl.
    assert (HR : holes_sorted pg (a + rq_sz r + pg)
        ({| hid := hid h; hs := a + rq_sz r + pg; he := Z.max (he h) (a + rq_sz r + pg) |} :: l2)).
    { cbn [holes_sorted hs he]. split; [zl|]. split; [zl|]. split; [destruct (_ =? _) eqn:E2; zl|].
      split; [exact Hab'|]. split; [exact Hmax|].
      eapply holes_sorted_weaken; [|exact D6]. destruct (_ =? _) eqn:E2; zl. }
    destruct (hs h <? a - pg) eqn:E; cbn [app].
    + cbn [holes_sorted hs he] in HR |- *.
      rewrite (proj2 (Z.eqb_neq (a - pg) (hs h))) by zl.
      split; [zl|]. split; [zl|]. split; [zl|]. split; [auto|]. split; [apply mod_sub0; auto; zl|].
      split; [zl|]. apply HR.
    + eapply holes_sorted_weaken; [|exact HR]. zl.
  - assert (HF : forall x, In x (map hid (l1 ++ h :: l2)) -> x <> sp_fresh sp).
    { intros x Hx. apply in_map_iff in Hx. destruct Hx as (g & <- & Hg). specialize (S3 g Hg). zl. }
    destruct (hs h <? a - pg); cbn [app]; rewrite ?map_app in *; cbn [map hid] in *; [|exact S2].
    apply NoDup_Add with (a := sp_fresh sp) (l := map hid l1 ++ hid h :: map hid l2); [apply Add_app|].
    split; [exact S2|]. intros C. apply (HF _ C). reflexivity.
  - assert (S3' : forall g, In g (l1 ++ h :: l2) -> (hid g < S (sp_fresh sp))%nat) by (intros g Hg; specialize (S3 g Hg); zl).
    intros g Hg. rewrite !in_app_iff in Hg. destruct Hg as [Hg|[[Hg|Hg]|Hg]].
    + apply S3'. rewrite in_app_iff. auto.
    + destruct (hs h <? a - pg); [|destruct Hg]. destruct Hg as [<-|[]]. cbn. zl.
    + destruct Hg as [<-|[]]. cbn. apply S3'. exact Hhin.
    + apply S3'. rewrite in_app_iff. right. right. exact Hg.
  - intros g x y Hg Hx Hy. rewrite !in_app_iff in Hg. unfold in_hole in Hx.
    destruct Hg as [Hg|[[Hg|Hg]|Hg]].
    + apply unmapped_cons; [apply (S4 g x y); [rewrite in_app_iff; auto|exact Hx|exact Hy]|].
      specialize (B1 g Hg). unfold edge in B1. destruct (he g =? hs g) eqn:E; zl.
    + destruct (hs h <? a - pg) eqn:E; [|destruct Hg]. destruct Hg as [<-|[]]. cbn in Hx.
      apply unmapped_cons; [apply (S4 h x y Hhin)|]; unfold in_hole; zl.
    + destruct Hg as [<-|[]]. cbn in Hx.
      apply unmapped_cons; [apply (S4 h x y Hhin)|]; unfold in_hole; zl.
    + apply unmapped_cons; [apply (S4 g x y); [rewrite in_app_iff; right; right; exact Hg|exact Hx|exact Hy]|].
      specialize (B2 g Hg). zl.
Qed.

(** The gap remembered for an object stays the right one when a patch is placed for
    any object. *)
Lemma object_ok_step sp r res sp' prev os oe : space_ok pg sp -> size_ok pg D (rq_sz r) ->
  object_ok pg D (sp_holes sp) (rq_prev r) (rq_os r) (rq_oe r) ->
  edge_clear D (sp_holes sp) (rq_oe r) (rq_sz r) -> place pg D sp r = (res, sp') ->
  object_ok pg D (sp_holes sp) prev os oe -> object_ok pg D (sp_holes sp') prev os oe.
Proof.
  intros SO Hsz Hob Hedge HP HO.
  destruct (place_cases _ _ _ _ SO Hsz Hob Hedge HP) as [[_ ->]|(a & h & l1 & l2 & _ & El & Ha & H1 & H2 & H3 & _ & ->)];
    [exact HO|].
  destruct HO as (HO1 & HO2). split; [exact HO1|]. intros id Hid. cbn [sp_holes].
  destruct (HO2 id Hid) as (l & p & rr & E1 & E2 & E3 & E4).
  destruct SO as [S1 S2 S3 S4]. destruct Hsz as (Z1 & Z2 & Z3 & Z4). pose proof (page_facts pg Hpg) as Hp.
  set (left := if hs h <? a - pg then [{| hid := sp_fresh sp; hs := hs h; he := a - pg |}] else []) in *.
  set (right := {| hid := hid h; hs := a + rq_sz r + pg; he := Z.max (he h) (a + rq_sz r + pg) |}) in *.
  rewrite El in E1, S2.
  (* where is the split gap relative to the remembered one *)
  assert (HC : (exists m, l = l1 ++ h :: m /\ l2 = m ++ p :: rr) \/ (l1 = l /\ h = p /\ l2 = rr) \/
               (exists m, rr = m ++ h :: l2 /\ l1 = l ++ p :: m)).
  { clear - E1. revert l1 E1. induction l as [|x l IH]; intros l1 E1.
    - destruct l1 as [|y l1]; cbn in E1.
      + injection E1 as <- <-. auto.
      + injection E1 as -> E1. right. right. exists l1. auto.
    - destruct l1 as [|y l1]; cbn in E1.
      + injection E1 as -> ->. left. exists l. auto.
      + injection E1 as -> E1. destruct (IH l1 E1) as [(m & -> & ->)|[(-> & -> & ->)|(m & -> & ->)]].
        * left. exists m. auto.
        * auto.
        * right. right. exists m. auto. }
  destruct HC as [(m & -> & ->)|[(-> & -> & ->)|(m & -> & ->)]].
  - exists (l1 ++ (left ++ [right]) ++ m), p, rr. split; [rewrite <- !app_assoc; reflexivity|]. auto.
  - exists (l ++ left), right, rr. split; [rewrite <- !app_assoc; reflexivity|]. split; [exact E2|].
    split; [|exact E4]. cbn [he hs right]. rewrite (proj2 (Z.eqb_neq (he p) (hs p))) in E3 by zl.
    destruct (_ =? _) eqn:E; zl.
  - exists l, p, (m ++ (left ++ [right]) ++ l2). split; [rewrite <- !app_assoc; reflexivity|]. split; [exact E2|].
    split; [exact E3|]. intros g Hg.
    assert (Hh : os <= hs h) by (apply E4; rewrite in_app_iff; right; left; reflexivity).
    rewrite !in_app_iff in Hg. destruct Hg as [Hg|[[Hg|Hg]|Hg]].
    + apply E4. rewrite in_app_iff. auto.
    + unfold left in Hg. destruct (hs h <? a - pg); [|destruct Hg]. destruct Hg as [<-|[]]. exact Hh.
    + destruct Hg as [<-|[]]. cbn. zl.
    + apply E4. rewrite in_app_iff. right. right. exact Hg.
Qed.
End Place.

(** ** The object as the parser remembers it *)

Lemma pick_in {X} mask (l : list X) x : In x (pick mask l) -> In x l.
Proof.
  revert l. induction mask as [|b m IH]; intros l Hi; [destruct Hi|].
  destruct l as [|y l]; [destruct Hi|]. cbn in Hi. destruct b.
  - destruct Hi as [<-|Hi]; [left; reflexivity|right; auto].
  - right. auto.
Qed.

Lemma last_end_in l : l <> [] -> exists s, In (s, last_end l) l.
Proof.
  induction l as [|[s e] l IH]; intros H; [contradiction|].
  destruct l as [|b l]; [exists s; left; reflexivity|].
  destruct IH as [s' Hs]; [discriminate|]. exists s'. right. exact Hs.
Qed.

Lemma last_end_ge pg lo l s e : maps_ok pg lo l -> In (s, e) l -> e <= last_end l.
Proof.
  revert lo s e. induction l as [|[s0 e0] l IH]; intros lo s e H Hi; [destruct Hi|].
  destruct l as [|b l].
  - destruct Hi as [E|[]]. injection E as -> ->. cbn. zl.
  - cbn [maps_ok] in H. destruct H as (_ & _ & _ & _ & _ & H). change (last_end ((s0, e0) :: b :: l)) with (last_end (b :: l)).
    destruct Hi as [E|Hi]; [|eapply IH; eauto].
    injection E as -> ->. destruct b as [s1 e1]. specialize (IH e s1 e1 H).
    assert (e1 <= last_end ((s1, e1) :: l)) by (apply IH; left; reflexivity).
    cbn [maps_ok] in H. zl.
Qed.

Lemma pick_maps_ok pg lo mask l : maps_ok pg lo l -> maps_ok pg lo (pick mask l).
Proof.
  revert lo l. induction mask as [|b m IH]; intros lo l H; [exact I|].
  destruct l as [|[s e] l]; [exact I|]. cbn [maps_ok] in H. destruct H as (H1 & H2 & H3 & H4 & H5 & H6).
  cbn [pick]. destruct b.
  - cbn [maps_ok]. specialize (IH e l H6). auto 7.
  - eapply maps_ok_weaken; [|apply IH; exact H6]. zl.
Qed.

(** The gap remembered for a mapping ends a page below it, and all gaps after it start
    above it. *)
Lemma prev_ids_spec pg maps : page_ok pg -> forall lo n cur done, 0 <= lo -> lo mod pg = 0 -> lo + pg < 2 ^ 64 ->
  maps_ok pg lo maps ->
  (forall id, cur = Some id -> exists l p, done = l ++ [p] /\ hid p = id /\ he p + pg <= lo /\ hs p < he p) ->
  forall k s e id, nth_error maps k = Some (s, e) -> nth_error (prev_ids pg lo n cur maps) k = Some (Some id) ->
  exists l p r, done ++ gaps pg lo n maps = l ++ p :: r /\ hid p = id /\ he p + pg <= s /\ hs p < he p /\
    forall h, In h r -> e <= hs h.
Proof.
  intros Hpg. pose proof (page_facts pg Hpg) as Hp.
  induction maps as [|[s0 e0] maps IH]; intros lo n cur done H0 Hl0 H64 Hm Hcur k s e id Hk Hid;
    [destruct k; discriminate|].
  pose proof Hm as Hm0. cbn [maps_ok] in Hm. destruct Hm as (H1 & H2 & H3 & H4 & H5 & H6).
  assert (HG : forall k, forall h, In h (gaps pg e0 k maps) -> e0 <= hs h).
  { intros k0 h Hh. pose proof (gaps_sorted pg maps Hpg e0 k0 ltac:(zl) H5 ltac:(zl) H6) as HS.
    apply (sorted_facts pg _ _ h ltac:(zl) HS) in Hh. zl. }
  cbn [gaps prev_ids] in *. rewrite (u64_small (s0 - lo)) in * by zl.
  destruct (2 * pg <? s0 - lo) eqn:E.
  - rewrite !u64_small by zl. set (g := {| hid := n; hs := lo + pg; he := s0 - pg |}) in *.
    destruct k as [|k]; cbn in Hk, Hid.
    + injection Hk as -> ->. injection Hid as <-. exists done, g, (gaps pg e (S n) maps).
      split; [reflexivity|]. split; [reflexivity|]. cbn. split; [zl|]. split; [zl|]. apply HG.
    + specialize (IH e0 (S n) (Some n) (done ++ [g]) ltac:(zl) H5 ltac:(zl) H6).
      destruct (IH ltac:(intros i Hi; injection Hi as <-; exists done, g; cbn; repeat split; zl) k s e id Hk Hid)
        as (l & p & r & E1 & E2). exists l, p, r. rewrite <- app_assoc in E1. split; [exact E1|exact E2].
  - destruct k as [|k]; cbn in Hk, Hid.
    + injection Hk as -> ->. injection Hid as ->. destruct (Hcur id eq_refl) as (l & p & -> & E2 & E3 & E4).
      exists l, p, (gaps pg e n maps). rewrite <- app_assoc. split; [reflexivity|]. split; [exact E2|].
      split; [zl|]. split; [zl|]. apply HG.
    + refine (IH e0 n cur done ltac:(zl) H5 ltac:(zl) H6 _ k s e id Hk Hid).
      intros i Hi. destruct (Hcur i Hi) as (l & p & -> & E2 & E3 & E4). exists l, p. repeat split; auto; zl.
Qed.

Lemma previous_nth mask (maps : list (Z * Z)) ids id : length ids = length maps ->
  previous_hole (pick mask ids) = Some id ->
  exists k s e, nth_error maps k = Some (s, e) /\ nth_error ids k = Some (Some id) /\ In (s, e) (pick mask maps).
Proof.
  revert mask ids. induction maps as [|[s e] maps IH]; intros mask ids HL HP.
  - destruct ids; [|discriminate]. destruct mask as [|b m]; [discriminate|discriminate].
  - destruct ids as [|i ids]; [discriminate|]. destruct mask as [|b m]; [discriminate|].
    cbn [pick] in *. destruct b.
    + destruct i as [i|].
      * cbn in HP. injection HP as <-. exists 0%nat, s, e. repeat split. left. reflexivity.
      * cbn in HP. destruct (IH m ids) as (k & s' & e' & A1 & A2 & A3); auto.
        exists (S k), s', e'. repeat split; auto. right. exact A3.
    + destruct (IH m ids) as (k & s' & e' & A1 & A2 & A3); auto. exists (S k), s', e'. auto.
Qed.

Lemma prev_ids_length pg maps : forall lo n cur, length (prev_ids pg lo n cur maps) = length maps.
Proof.
  induction maps as [|[s e] maps IH]; intros; [reflexivity|]. cbn [prev_ids].
  destruct (2 * pg <? u64 (s - lo)); cbn; rewrite IH; reflexivity.
Qed.

Lemma first_start_le pg lo l s e : maps_ok pg lo l -> In (s, e) l -> first_start l <= s.
Proof.
  destruct l as [|[s0 e0] l]; intros H Hi; [destruct Hi|]. cbn [first_start].
  destruct Hi as [E|Hi]; [injection E as -> ->; zl|]. cbn [maps_ok] in H.
  pose proof (maps_ok_above pg e0 l s e ltac:(apply H) Hi). zl.
Qed.

Lemma start_object_ok pg D maps mask : page_ok pg -> maps_ok pg 0 maps -> pick mask maps <> [] ->
  last_end (pick mask maps) - first_start (pick mask maps) <= D ->
  object_ok pg D (sp_holes (start_space pg maps)) (previous_hole (pick mask (prev_ids pg 0 0 None maps)))
    (first_start (pick mask maps)) (last_end (pick mask maps)).
Proof.
  intros Hpg Hm Hne HD. pose proof (page_facts pg Hpg) as Hp.
  pose proof (pick_maps_ok pg 0 mask maps Hm) as Hpm.
  assert (HF : exists e, In (first_start (pick mask maps), e) (pick mask maps)).
  { destruct (pick mask maps) as [|[s e] l]; [contradiction|]. exists e. left. reflexivity. }
  destruct HF as [e1 HF]. destruct (last_end_in _ Hne) as [s1 HL].
  assert (HA : forall lo l s e, maps_ok pg lo l -> In (s, e) l -> s mod pg = 0 /\ e mod pg = 0 /\ e + pg < 2 ^ 64).
  { clear. intros lo l. revert lo. induction l as [|[s0 e0] l IH]; intros lo s e H Hi; [destruct Hi|].
    cbn [maps_ok] in H. destruct Hi as [E|Hi]; [injection E as -> ->; intuition|]. eapply IH; [apply H|exact Hi]. }
  pose proof (HA _ _ _ _ Hpm HF) as A1. pose proof (HA _ _ _ _ Hpm HL) as A2.
  pose proof (maps_ok_above _ _ _ _ _ Hpm HF) as A3. pose proof (maps_ok_above _ _ _ _ _ Hpm HL) as A4.
  pose proof (last_end_ge _ _ _ _ _ Hpm HF) as A5.
  split; [repeat split; try apply A1; try apply A2; try zl|].
  intros id Hid. destruct (previous_nth mask maps _ id (prev_ids_length pg maps 0 0 None) Hid) as (k & s & e & B1 & B2 & B3).
  destruct (prev_ids_spec pg maps Hpg 0 0%nat None [] ltac:(zl) ltac:(apply Z.mod_0_l; zl) ltac:(zl) Hm
    ltac:(intros ? C; discriminate) k s e id B1 B2) as (l & p & r & C1 & C2 & C3 & C4 & C5).
  exists l, p, r. cbn [sp_holes start_space]. cbn [app] in C1. split; [exact C1|]. split; [exact C2|]. 
  pose proof (last_end_ge _ _ _ _ _ Hpm B3) as D1. pose proof (maps_ok_above _ _ _ _ _ Hpm B3) as D2.
  pose proof (first_start_le _ _ _ _ _ Hpm B3) as D3. split.
  - rewrite (proj2 (Z.eqb_neq (he p) (hs p))) by zl. zl.
  - intros h Hh. specialize (C5 h Hh). zl.
Qed.

Lemma placed_ok pg D maps sp : page_ok pg -> maps_ok pg 0 maps -> placed pg D maps sp ->
  space_ok pg sp /\
  forall mask, pick mask maps <> [] -> last_end (pick mask maps) - first_start (pick mask maps) <= D ->
    object_ok pg D (sp_holes sp) (previous_hole (pick mask (prev_ids pg 0 0 None maps)))
      (first_start (pick mask maps)) (last_end (pick mask maps)).
Proof.
  intros Hpg Hm H. induction H as [|sp r res sp' mask H IH H1 H2 H3 H4 H5 H6 H7 H8].
  - split; [apply start_space_ok; auto|]. intros. apply start_object_ok; auto.
  - destruct IH as [IH1 IH2].
    assert (HO : object_ok pg D (sp_holes sp) (rq_prev r) (rq_os r) (rq_oe r)).
    { rewrite H2, H3, H4. apply IH2; auto. rewrite <- H3, <- H4. exact H5. }
    split; [eapply place_ok; eauto|]. intros mask' Hm1 Hm2. eapply object_ok_step; eauto.
Qed.

(** Placing one more patch: a page away from everything, and within reach. *)
Lemma placed_next pg D maps sp r a sp' mask : page_ok pg -> maps_ok pg 0 maps -> placed pg D maps sp ->
  pick mask maps <> [] ->
  rq_prev r = previous_hole (pick mask (prev_ids pg 0 0 None maps)) ->
  rq_os r = first_start (pick mask maps) -> rq_oe r = last_end (pick mask maps) ->
  rq_oe r - rq_os r <= D -> size_ok pg D (rq_sz r) -> edge_clear D (sp_holes sp) (rq_oe r) (rq_sz r) ->
  place pg D sp r = (Some a, sp') ->
  sp_used sp' = (a, a + rq_sz r) :: sp_used sp /\ a mod pg = 0 /\
  (forall u, In u (sp_used sp) -> fst u < snd u -> apart pg (a, a + rq_sz r) u) /\
  reach pg D (rq_os r) (rq_oe r) (rq_sz r) a.
Proof.
  intros Hpg Hm HP Hne E1 E2 E3 HD Hsz Hedge HPl.
  destruct (placed_ok pg D maps sp Hpg Hm HP) as [SO HO].
  assert (HO' : object_ok pg D (sp_holes sp) (rq_prev r) (rq_os r) (rq_oe r)).
  { rewrite E1, E2, E3. apply HO; auto. rewrite <- E2, <- E3. exact HD. }
  destruct (place_cases pg D Hpg _ _ _ _ SO Hsz HO' Hedge HPl) as [[C _]|(a' & h & l1 & l2 & Ea & El & Ha & H1 & H2 & H3 & HR & ->)];
    [discriminate|]. injection Ea as <-.
  split; [reflexivity|]. split; [exact Ha|]. split; [|exact HR].
  intros [s e] Hu Hse. cbn in Hse. unfold apart. cbn [fst snd].
  destruct SO as [S1 S2 S3 S4]. pose proof (page_facts pg Hpg) as Hp. destruct Hsz as (Z1 & Z2 & Z3 & Z4).
  assert (Hh : In h (sp_holes sp)) by (rewrite El, in_app_iff; right; left; reflexivity).
  destruct (Z.le_gt_cases (a + rq_sz r + pg) s) as [|G1]; [left; zl|].
  destruct (Z.le_gt_cases (e + pg) a) as [|G2]; [right; zl|]. exfalso.
  (* a point of [s, e) within a page of the region *)
  set (y := Z.max s (a - pg)). set (x := Z.min (a + rq_sz r - 1) (Z.max a y)).
  apply (S4 h x y Hh ltac:(unfold in_hole, x, y; zl) ltac:(unfold x, y; zl) s e Hu). unfold y. zl.
Qed.

Lemma placed_apart pg D maps sp : page_ok pg -> maps_ok pg 0 maps -> placed pg D maps sp ->
  exists patches, sp_used sp = patches ++ maps /\
    ForallOrdPairs (apart pg) patches /\
    forall p m, In p patches -> In m maps -> apart pg p m.
Proof.
  intros Hpg Hm H. 
  assert (HW : exists patches, sp_used sp = patches ++ maps /\
    ForallOrdPairs (apart pg) patches /\ (forall p m, In p patches -> In m maps -> apart pg p m) /\
    forall p, In p patches -> fst p < snd p).
  { induction H as [|sp r res sp' mask H IH H1 H2 H3 H4 H5 H6 H7 H8].
    - exists []. split; [reflexivity|]. split; [constructor|]. split; intros p; intros; contradiction.
    - destruct IH as (ps & E & I1 & I2 & I3). destruct res as [a|].
      + destruct (placed_next pg D maps sp r a sp' mask Hpg Hm H H1 H2 H3 H4 H5 H6 H7 H8) as (N1 & N2 & N3 & N4).
        exists ((a, a + rq_sz r) :: ps). rewrite N1, E. split; [reflexivity|]. split; [|split].
        * constructor; [|exact I1]. apply Forall_forall. intros u Hu. apply N3; [rewrite E, in_app_iff; auto|auto].
        * intros p m [<-|Hp] Hmm; [|auto]. apply N3; [rewrite E, in_app_iff; auto|].
          destruct m as [s e]. pose proof (maps_ok_above _ _ _ _ _ Hm Hmm). cbn. zl.
        * intros p [<-|Hp]; [cbn; destruct H6 as (_ & _ & H6 & _); zl|auto].
      + destruct (placed_ok pg D maps sp Hpg Hm H) as [SO HO].
        assert (HO' : object_ok pg D (sp_holes sp) (rq_prev r) (rq_os r) (rq_oe r)).
        { rewrite H2, H3, H4. apply HO; auto. rewrite <- H3, <- H4. exact H5. }
        destruct (place_cases pg D Hpg _ _ _ _ SO H6 HO' H7 H8) as [[_ ->]|(a' & h & l1 & l2 & Ea & _)]; [|discriminate].
        exists ps. auto. }
  destruct HW as (ps & A1 & A2 & A3 & _). exists ps. auto.
Qed.

(** ** C13: the address found, right after the map has been read *)
Lemma find_aligned pg D holes prev os oe sz a h : page_ok pg ->
  find_region pg D holes prev os oe sz = (a, h) -> a <> 2 ^ 64 - 1 -> a mod pg = 0.
Proof.
  intros Hpg H Hne. unfold find_region in H.
  destruct (match prev with None => None | Some id => around [] id holes end) as [[[b p] r]|];
    [|injection H as <- <-; contradiction].
  destruct (walk _ _ _ _ _ _) as [[[rs re] h']|]; [|injection H as <- <-; contradiction].
  destruct (rs =? re); injection H as <- <-; [contradiction|]. apply page_down_mod. exact Hpg.
Qed.

Lemma start_find pg D maps mask sz a h : page_ok pg -> maps_ok pg 0 maps -> pick mask maps <> [] ->
  last_end (pick mask maps) - first_start (pick mask maps) <= D -> size_ok pg D sz ->
  edge_clear D (gaps pg 0 0 maps) (last_end (pick mask maps)) sz ->
  find_region pg D (gaps pg 0 0 maps) (previous_hole (pick mask (prev_ids pg 0 0 None maps)))
    (first_start (pick mask maps)) (last_end (pick mask maps)) sz = (a, h) -> a <> 2 ^ 64 - 1 ->
  a mod pg = 0 /\ (pg <= a /\ a + sz + pg < 2 ^ 64) /\
  (forall x, a - pg <= x < a + sz + pg -> unmapped maps x) /\
  (forall x y, a <= x < a + sz -> first_start (pick mask maps) <= y <= last_end (pick mask maps) -> - D <= x - y < D - pg).
Proof.
  intros Hpg Hm Hne HD Hsz Hedge HF Ha. pose proof (find_aligned _ _ _ _ _ _ _ _ _ Hpg HF Ha) as Hal.
  pose proof (start_space_ok pg maps Hpg Hm) as [S1 S2 S3 S4].
  pose proof (start_object_ok pg D maps mask Hpg Hm Hne HD) as Hob. cbn [sp_holes sp_used start_space] in *.
  destruct (find_inside _ _ _ _ _ _ _ _ _ Hpg Hsz S1 S2 Hob Hedge HF Hal) as (h' & -> & Hi & H1 & H2 & H3).
  destruct Hsz as (Z1 & Z2 & Z3 & Z4). pose proof (page_facts pg Hpg) as Hp.
  destruct (sorted_fine pg _ h' ltac:(zl) S1 Hi) as (F1 & F2 & F3 & F4 & F5).
  split; [exact Hal|]. split; [split; zl|].
  split; [|exact (find_reach _ _ _ _ _ _ _ _ _ Hpg (conj Z1 (conj Z2 (conj Z3 Z4))) S1 S2 Hob Hedge HF Hal)].
  intros x Hx. apply (S4 h' (Z.max a (Z.min x (a + sz - 1))) x Hi); unfold in_hole; zl.
Qed.

(** ** C14: nothing large enough *)
Lemma walk_none maxd os oe sz L : forall R, (forall h, In h L \/ In h R -> hole_size h <= sz) ->
  walk maxd os oe sz L R = None.
Proof.
  induction L as [|l L IH]; intros R H; [reflexivity|]. destruct R as [|r R]; [reflexivity|]. cbn [walk].
  assert (E1 : sz <? hole_size r = false) by (apply Z.ltb_ge; apply H; right; left; reflexivity).
  assert (E2 : sz <? hole_size l = false) by (apply Z.ltb_ge; apply H; left; left; reflexivity).
  rewrite E1, E2, andb_false_r. destruct (maxd <? u64 (oe - he l)); [reflexivity|].
  apply IH. intros h [Hh|Hh]; [apply H; left; right; exact Hh|].
  apply H. right. right. destruct (maxd <? u64 (hs r - os)); [destruct Hh|exact Hh].
Qed.

Lemma find_nothing pg D holes prev os oe sz :
  (forall h, In h holes -> hs h <= he h < 2 ^ 64 /\ he h - hs h <= sz /\ 0 <= hs h) ->
  find_region pg D holes prev os oe sz = (2 ^ 64 - 1, None).
Proof.
  intros H. unfold find_region.
  destruct (match prev with None => None | Some id => around [] id holes end) as [[[b p] r]|] eqn:E; [|reflexivity].
  rewrite walk_none; [reflexivity|]. destruct prev as [id|]; [|discriminate].
  apply around_spec in E. destruct E as (l & El & Eb & Ei).
  intros h Hh. assert (Hi : In h holes).
  { rewrite El. rewrite in_app_iff. subst b. rewrite app_nil_r in Hh. cbn in Hh |- *. rewrite <- in_rev in Hh. tauto. }
  specialize (H h Hi). unfold hole_size. rewrite u64_small by zl. zl.
Qed.
