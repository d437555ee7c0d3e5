(** Lemmas joining the search for a place with the jump encodings and the engine. *)
From Coq Require Import ZArith List Bool Lia ZifyBool Sorted.
From Verif Require Import Base BaseProofs RemoteModel JumpSpec JumpModel JumpProofs EngineModel EngineSpec
  HoleModel HoleSpec HoleProofs.
Import ListNotations.
Open Scope Z_scope.
Ltac Zify.zify_post_hook ::= idtac.

Lemma gaps_exact0 pg maps x : page_ok pg -> maps_ok pg 0 maps ->
  (exists h, In h (gaps pg 0 0 maps) /\ in_hole h x) <->
  (pg <= x /\ (exists s e, In (s, e) maps /\ x + pg < s) /\
   forall y, x - pg <= y <= x + pg -> unmapped maps y).
Proof.
  intros Hpg Hm. pose proof (page_facts pg Hpg). apply (gaps_exact pg maps ltac:(lia) 0 0%nat x); auto; lia.
Qed.

Lemma gaps_apart pg maps : page_ok pg -> forall lo n, 0 <= lo -> lo + pg < 2 ^ 64 -> maps_ok pg lo maps ->
  (forall h, In h (gaps pg lo n maps) -> lo + pg <= hs h) /\
  forall l h1 m h2 r, gaps pg lo n maps = l ++ h1 :: m ++ h2 :: r -> he h1 + 2 * pg < hs h2.
Proof.
  intros Hpg. pose proof (page_facts pg Hpg) as Hp.
  induction maps as [|[s e] maps IH]; intros lo n Hlo H64 Hm.
  - split; [intros h []|]. intros l h1 m h2 r E. destruct l; discriminate.
  - cbn [maps_ok] in Hm. destruct Hm as (H1 & H2 & H3 & H4 & H5 & H6). cbn [gaps].
    rewrite u64_small by zl. destruct (2 * pg <? s - lo) eqn:E.
    + rewrite !u64_small by zl. destruct (IH e (S n) ltac:(zl) ltac:(zl) H6) as [I1 I2]. split.
      * intros h [<-|Hi]; [cbn; zl|]. specialize (I1 h Hi). zl.
      * intros l h1 m h2 r El. destruct l as [|x l]; cbn in El.
        -- injection El as <- El. assert (Hi : In h2 (gaps pg e (S n) maps)) by (rewrite El, in_app_iff; right; left; reflexivity).
           specialize (I1 h2 Hi). cbn [he hs]. zl.
        -- injection El as <- El. eapply I2; eauto.
    + destruct (IH e n ltac:(zl) ltac:(zl) H6) as [I1 I2]. split; [|exact I2].
      intros h Hi. specialize (I1 h Hi). zl.
Qed.

Lemma nodup_two {X} (l : list X) a m b r : NoDup (l ++ a :: m ++ b :: r) -> a <> b.
Proof.
  intros H C. subst b. apply NoDup_remove_2 in H. apply H. rewrite !in_app_iff. right. right. left. reflexivity.
Qed.

Lemma gaps_sorted0 pg maps l h1 m h2 r : page_ok pg -> maps_ok pg 0 maps ->
  gaps pg 0 0 maps = l ++ h1 :: m ++ h2 :: r -> hs h1 < he h1 /\ he h1 + 2 * pg < hs h2 /\ hid h1 <> hid h2.
Proof.
  intros Hpg Hm E. pose proof (page_facts pg Hpg) as Hp.
  destruct (gaps_apart pg maps Hpg 0 0%nat ltac:(zl) ltac:(zl) Hm) as [_ HA].
  split; [|split; [eapply HA; exact E|]].
  - assert (Hi : In h1 (gaps pg 0 0 maps)) by (rewrite E, in_app_iff; right; left; reflexivity).
    clear - Hi Hm Hp. assert (G : forall lo n, 0 <= lo -> lo + pg < 2 ^ 64 -> maps_ok pg lo maps -> In h1 (gaps pg lo n maps) -> hs h1 < he h1).
    { clear Hi Hm. induction maps as [|[s e] maps IH]; intros lo n H0 H64 Hm Hi; [destruct Hi|].
      cbn [maps_ok] in Hm. destruct Hm as (H1 & H2 & H3 & H4 & H5 & H6). cbn [gaps] in Hi.
      rewrite (u64_small (s - lo)) in Hi by zl. destruct (2 * pg <? s - lo) eqn:E.
      - rewrite !u64_small in Hi by zl. destruct Hi as [<-|Hi]; [cbn; zl|]. exact (IH e _ ltac:(zl) ltac:(zl) H6 Hi).
      - exact (IH e _ ltac:(zl) ltac:(zl) H6 Hi). }
    apply (G 0 0%nat); auto; zl.
  - pose proof (gaps_nodup pg maps 0 0%nat) as ND. rewrite E in ND.
    rewrite map_app in ND. cbn [map] in ND. rewrite map_app in ND. cbn [map] in ND. eapply nodup_two. exact ND.
Qed.

Lemma sext_dist x : - 2 ^ 63 <= x < 2 ^ 63 -> sext 64 x = x.
Proof.
  intros H. unfold sext. change (2 ^ (64 - 1)) with (2 ^ 63).
  destruct (Z.lt_ge_cases x 0) as [L|L].
  - replace (x mod 2 ^ 64) with (x + 2 ^ 64).
    + destruct (_ <? _) eqn:E; lia.
    + apply Z.mod_unique with (q := -1); lia.
  - rewrite Z.mod_small by lia. destruct (_ <? _) eqn:E; lia.
Qed.

Lemma bounds pg maps mask : page_ok pg -> maps_ok pg 0 maps -> pick mask maps <> [] ->
  0 <= first_start (pick mask maps) /\ last_end (pick mask maps) < 2 ^ 64.
Proof.
  intros Hpg Hm Hne. pose proof (start_object_ok pg (last_end (pick mask maps) - first_start (pick mask maps)) maps mask Hpg Hm Hne ltac:(lia)) as [H _].
  zl.
Qed.

Lemma place_x86 pg maps mask sz a h d s :
  page_ok pg -> maps_ok pg 0 maps -> pick mask maps <> [] ->
  let os := first_start (pick mask maps) in let oe := last_end (pick mask maps) in
  oe - os <= dist_x86 -> size_ok pg dist_x86 sz -> edge_clear dist_x86 (gaps pg 0 0 maps) oe sz ->
  find_region pg dist_x86 (gaps pg 0 0 maps) (previous_hole (pick mask (prev_ids pg 0 0 None maps))) os oe sz = (a, h) ->
  a <> 2 ^ 64 - 1 ->
  os <= d -> d + 5 <= oe -> a <= s < a + sz ->
  x86_exec d (x86_code d s) = Some s.
Proof.
  intros Hpg Hm Hne os oe HD Hsz He HF Ha Hd1 Hd2 Hs.
  destruct (start_find pg dist_x86 maps mask sz a h Hpg Hm Hne HD Hsz He HF Ha) as (R1 & R0 & R2 & R3).
  pose proof (page_facts pg Hpg) as Hp. destruct (bounds pg maps mask Hpg Hm Hne) as [B1 B2]. fold os oe in B1, B2, R3.
  specialize (R3 s (d + 5) Hs ltac:(zl)). unfold dist_x86 in R3.
  apply x86_jump_iff; unfold addr_ok; [zl|zl|].
  replace (s - d - 5) with (s - (d + 5)) by lia. rewrite sext_dist by lia. lia.
Qed.

Lemma place_a64 pg maps mask sz a h d s :
  page_ok pg -> maps_ok pg 0 maps -> pick mask maps <> [] ->
  let os := first_start (pick mask maps) in let oe := last_end (pick mask maps) in
  oe - os <= dist_aarch64 -> size_ok pg dist_aarch64 sz -> edge_clear dist_aarch64 (gaps pg 0 0 maps) oe sz ->
  find_region pg dist_aarch64 (gaps pg 0 0 maps) (previous_hole (pick mask (prev_ids pg 0 0 None maps))) os oe sz = (a, h) ->
  a <> 2 ^ 64 - 1 ->
  os <= d <= oe -> a <= s < a + sz -> d mod 4 = 0 -> s mod 4 = 0 ->
  a64_exec d (a64_code d s) = Some s.
Proof.
  intros Hpg Hm Hne os oe HD Hsz He HF Ha Hd Hs M1 M2.
  destruct (start_find pg dist_aarch64 maps mask sz a h Hpg Hm Hne HD Hsz He HF Ha) as (R1 & R0 & R2 & R3).
  pose proof (page_facts pg Hpg) as Hp. destruct (bounds pg maps mask Hpg Hm Hne) as [B1 B2]. fold os oe in B1, B2, R3.
  specialize (R3 s d Hs Hd). unfold dist_aarch64 in R3.
  apply a64_jump_iff; unfold addr_ok; [zl|zl|]. rewrite sext_dist by zl.
  split; [|zl]. rewrite Zminus_mod, M1, M2. reflexivity.
Qed.

Lemma place_rv pg maps mask sz a h d s :
  page_ok pg -> maps_ok pg 0 maps -> pick mask maps <> [] ->
  let os := first_start (pick mask maps) in let oe := last_end (pick mask maps) in
  oe - os <= dist_riscv64 -> size_ok pg dist_riscv64 sz -> edge_clear dist_riscv64 (gaps pg 0 0 maps) oe sz ->
  find_region pg dist_riscv64 (gaps pg 0 0 maps) (previous_hole (pick mask (prev_ids pg 0 0 None maps))) os oe sz = (a, h) ->
  a <> 2 ^ 64 - 1 ->
  os <= d <= oe -> a <= s < a + sz -> s mod 2 = 0 ->
  rv_exec d (rv_code d s) = Some s.
Proof.
  intros Hpg Hm Hne os oe HD Hsz He HF Ha Hd Hs M2.
  destruct (start_find pg dist_riscv64 maps mask sz a h Hpg Hm Hne HD Hsz He HF Ha) as (R1 & R0 & R2 & R3).
  pose proof (page_facts pg Hpg) as Hp. destruct (bounds pg maps mask Hpg Hm Hne) as [B1 B2]. fold os oe in B1, B2, R3.
  specialize (R3 s d Hs Hd). unfold dist_riscv64 in R3.
  apply rv_jump_iff; unfold addr_ok; [zl|zl|]. rewrite sext_dist by zl.
  split; [exact M2|]. lia.
Qed.

(** ** C14 *)
Lemma choice_same s : match choice s with
  | (Ret _, s') => sm s' = sm s /\ sx s' = sx s
  | (Err, s') => sm s' = sm s /\ sx s' = sx s
  | (Die, s') => sm s' = sm s /\ sx s' = sx s
  | _ => False end.
Proof. unfold choice, pop. destruct (so s) as [|[| |] l]; cbn; auto. Qed.

Lemma minus_one_unaligned pg : page_ok pg -> (2 ^ 64 - 1) mod pg <> 0.
Proof.
  intros (k & Hk & ->). intros C. apply Z.mod_divide in C; [|lia].
  destruct C as [q Hq]. assert (E : 2 ^ k = 2 * 2 ^ (k - 1)) by (rewrite <- Z.pow_succ_r by lia; f_equal; lia).
  rewrite E in Hq. change (2 ^ 64) with (2 * 2 ^ 63) in Hq. nia.
Qed.

Lemma no_place A jent pg D p o holes prev os oe s :
  page_ok pg -> fresh o p ->
  (forall sz, o_find o sz = fst (find_region pg D holes prev os oe sz)) ->
  (forall off n h, p_info p = Some (off, n) -> In h holes ->
     0 <= hs h /\ hs h <= he h < 2 ^ 64 /\ he h - hs h <= region_size A jent pg p off n) ->
  let '(res, _, s') := object_apply_patch A jent pg o s in
  (res = Err \/ res = Die) /\ (forall x, sm s' x = sm s x) /\ (forall x, sx s' x = sx s x).
Proof.
  intros Hpg [F1 F2 F3 F4 F5] Hfind Hsmall.
  assert (W : forall s1, sm s1 = sm s /\ sx s1 = sx s -> (forall x, sm s1 x = sm s x) /\ (forall x, sx s1 x = sx s x)).
  { intros s1 [-> ->]. auto. }
  unfold object_apply_patch, object_apply_patch_with. unfold obind at 1, oget at 1. rewrite F1, F2.
  unfold obind at 1. unfold lift at 1.
  pose proof (choice_same s) as C1. destruct (choice s) as [[[]| | | |] s1]; try contradiction; try (split; [auto|apply W; exact C1]).
  unfold obind at 1, oput at 1. unfold obind at 1.
  destruct (applied_by_id o (hdr_str (p_hdr p) h_id)); [unfold ofail at 1; split; [auto|apply W; exact C1]|].
  unfold oret at 1. destruct (p_info p) as [[off n]|] eqn:Ei; [|unfold ofail at 1; split; [auto|apply W; exact C1]].
  unfold obind at 1, oput at 1. unfold obind at 1.
  assert (C2 : match (if p_undef p =? 0 then oret tt else lift choice)
      (with_info (with_hdr o (p_hdr p)) (p_infos0 p)) s1 with
      | (Ret _, o', s2) => sm s2 = sm s /\ sx s2 = sx s
      | (Err, o', s2) => sm s2 = sm s /\ sx s2 = sx s
      | (Die, o', s2) => sm s2 = sm s /\ sx s2 = sx s
      | _ => False end).
  { destruct (p_undef p =? 0); [unfold oret; auto|]. unfold lift.
    pose proof (choice_same s1) as C2. destruct C1 as [<- <-].
    destruct (choice s1) as [[[]| | | |] s2]; auto. }
  destruct ((if p_undef p =? 0 then oret tt else lift choice) _ s1) as [[[[]| | | |] o2] s2];
    try contradiction; try (split; [auto|apply W; exact C2]).
  destruct (layout A jent pg (p_hdr p) (p_undef p) off n) as [h' sz] eqn:EL.
  unfold obind at 1, oput at 1. unfold obind at 1.
  unfold allocate_patch at 1. unfold obind at 1, oget at 1. cbn [o_find with_info with_hdr].
  assert (Esz : sz = region_size A jent pg p off n) by (unfold region_size; rewrite EL; reflexivity).
  rewrite Hfind, find_nothing.
  2:{ intros h Hh. specialize (Hsmall off n h eq_refl Hh). rewrite Esz. lia. }
  cbn [fst]. change (2 ^ 64 - 1 =? 0) with false. cbv iota.
  unfold obind at 1. unfold lift at 1. unfold mmap_remote at 1.
  assert (Er : range_ok pg (2 ^ 64 - 1) sz = false).
  { unfold range_ok. rewrite (proj2 (Z.eqb_neq _ 0) (minus_one_unaligned pg Hpg)). reflexivity. }
  rewrite Er. cbn [negb].
  destruct (pop s2) as [ans s3] eqn:Ep. assert (P : sm s3 = sm s /\ sx s3 = sx s).
  { destruct C2 as [<- <-]. unfold pop in Ep. destruct (so s2); injection Ep as <- <-; auto. }
  destruct ans; split; auto; apply W; exact P.
Qed.

(** ** C15 *)
Lemma ordpairs_nth {X} (R : X -> X -> Prop) l : ForallOrdPairs R l ->
  forall a p m q r, l = a ++ p :: m ++ q :: r -> R p q.
Proof.
  induction 1 as [|x l Hx H IH]; intros a p m q r E; [destruct a; discriminate|].
  destruct a as [|y a]; cbn in E.
  - injection E as -> ->. rewrite Forall_forall in Hx. apply Hx. rewrite in_app_iff. right. left. reflexivity.
  - injection E as -> E. eapply IH. exact E.
Qed.

Lemma placed_apart_nth pg D maps sp : page_ok pg -> maps_ok pg 0 maps -> placed pg D maps sp ->
  exists patches, sp_used sp = patches ++ maps /\
    (forall l p m q r, patches = l ++ p :: m ++ q :: r -> apart pg p q) /\
    forall p m, In p patches -> In m maps -> apart pg p m.
Proof.
  intros Hpg Hm H. destruct (placed_apart pg D maps sp Hpg Hm H) as (ps & E & H1 & H2).
  exists ps. split; [exact E|]. split; [|exact H2]. intros l p m q r El. eapply ordpairs_nth; eauto.
Qed.

Lemma placed_gaps pg D maps sp : page_ok pg -> maps_ok pg 0 maps -> placed pg D maps sp ->
  (forall h x y, In h (sp_holes sp) -> in_hole h x -> x - pg <= y <= x + pg -> unmapped (sp_used sp) y) /\
  (forall l h1 m h2 r, sp_holes sp = l ++ h1 :: m ++ h2 :: r -> hs h1 <= he h1 /\ he h1 <= hs h2).
Proof.
  intros Hpg Hm H. destruct (placed_ok pg D maps sp Hpg Hm H) as [[S1 S2 S3 S4] _]. pose proof (page_facts pg Hpg) as Hp.
  split; [exact S4|]. intros l h1 m h2 r E. rewrite E in S1.
  pose proof (sorted_facts pg pg _ h1 ltac:(zl) S1 ltac:(rewrite in_app_iff; right; left; reflexivity)) as F1.
  pose proof (sorted_after pg pg l h1 (m ++ h2 :: r) h2 ltac:(zl) S1 ltac:(rewrite in_app_iff; right; left; reflexivity)) as F2.
  unfold edge in F2. destruct (he h1 =? hs h1) eqn:E1; zl.
Qed.
