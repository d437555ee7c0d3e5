(** C60: which places the search for a patch's region finds. *)
From Verif Require Import Base BaseProofs HoleModel HoleSpec HoleProofs.

(** The gaps are looked at in pairs: the k-th before the object with the k-th after it.  [D]: the greatest distance, [sz]: the
    size wanted.  A gap is in reach if it begins, or ends, not further than D - sz from the object's other end; it is wide
    if it is larger than the patch. *)
Definition right_near (D os sz : Z) (r : hole) : Prop := hs r - os <= D - sz.
Definition left_near (D oe sz : Z) (l : hole) : Prop := oe - he l <= D - sz.
Definition wide (sz : Z) (h : hole) : Prop := sz < he h - hs h.
(** It is taken unless the room in reach is exactly that of the patch *)
Definition right_taken (D os sz : Z) (r : hole) : Prop := hs r - os < D - sz /\ wide sz r.
Definition left_taken (D oe sz : Z) (l : hole) : Prop :=
  left_near D oe sz l /\ wide sz l /\ (oe - hs l <= D - sz \/ oe - he l <> D - 2 * sz).
(** The pair before which all pairs were passed by *)
Definition passed (D os oe sz : Z) (l r : hole) : Prop :=
  right_near D os sz r /\ ~ wide sz r /\ left_near D oe sz l /\ ~ wide sz l.
Definition pair_found (D os oe sz : Z) (L R : list hole) : Prop :=
  exists k l r, nth_error L k = Some l /\ nth_error R k = Some r /\
    (forall j l' r', (j < k)%nat -> nth_error L j = Some l' -> nth_error R j = Some r' -> passed D os oe sz l' r') /\
    (right_taken D os sz r \/ ~ (right_near D os sz r /\ wide sz r) /\ left_taken D oe sz l).

Lemma walk_found pg D os oe sz L : page_ok pg -> size_ok pg D sz -> 0 <= os /\ os < oe /\ oe < 2 ^ 64 -> forall R,
  (forall h, In h L -> hole_fine pg h /\ he h <= oe) -> (forall h, In h R -> hole_fine pg h /\ os <= hs h) ->
  ((exists rs re h, walk (u64 (D - sz)) os oe sz L R = Some (rs, re, h) /\ rs <> re) <-> pair_found D os oe sz L R).
Proof.
  intros Hpg Hsz Ho. destruct Hsz as (Z1 & Z2 & Z3 & Z4). pose proof (page_facts pg Hpg) as Hp. rewrite u64_small by (clear - Z3 Z4; lia). clear Z1 Z2.
  induction L as [|l L IH]; intros R HL HR.
  - split; [intros (rs & re & h & H & _); destruct R; discriminate|intros (k & x & y & H & _); destruct k; discriminate].
  - destruct R as [|r R]; [split; [intros (rs & re & h & H & _); discriminate|intros (k & x & y & _ & H & _); destruct k; discriminate]|].
    cbn [walk]. unfold hole_size.
    destruct (HL l (or_introl eq_refl)) as ((L1 & L2 & L3 & _) & L6). destruct (HR r (or_introl eq_refl)) as ((R1 & R2 & R3 & _) & R6).
    rewrite !(u64_small (hs r - os)), !(u64_small (he r - hs r)), !(u64_small (oe - he l)), !(u64_small (he l - hs l)), !(u64_small (oe - hs l)), !(u64_small (he r - os)) by (clear - L1 L2 L3 L6 R1 R2 R3 R6 Ho Hp; lia).
    destruct (Z.ltb_spec (D - sz) (hs r - os)) as [FR|FR]; cbn [negb andb].
    + (* far on the right: the walk ends after this pair *)
      assert (NR : ~ (right_near D os sz r /\ wide sz r) /\ ~ right_taken D os sz r) by (unfold right_near, right_taken; clear - FR; lia).
      assert (K : pair_found D os oe sz (l :: L) (r :: R) <-> left_taken D oe sz l).
      { split.
        - intros (k & x & y & X & Y & P & Q). destruct k as [|k].
          + injection X as <-. injection Y as <-. tauto.
          + destruct (P 0%nat l r ltac:(lia) eq_refl eq_refl) as (C & _). unfold right_near in C. lia.
        - intros T. exists 0%nat, l, r. split; [reflexivity|]. split; [reflexivity|]. split; [intros j l' r' J; lia|]. tauto. }
      rewrite K. clear K. unfold left_taken, left_near, wide.
      destruct (Z.ltb_spec (D - sz) (oe - he l)) as [FL|FL]; [split; [intros (rs & re & h & H & _); discriminate|lia]|].
      destruct (Z.ltb_spec sz (he l - hs l)) as [WL|WL].
      * split.
        -- intros (rs & re & h & H & N). injection H as <- <- <-. split; [lia|split; [lia|]]. rewrite (u64_small (he l - sz)) in N by lia.
           destruct (Z.leb_spec (oe - hs l) (D - sz)); [left; lia|right]. destruct (Z.ltb_spec (D - sz) oe); [rewrite u64_small in N by lia; lia|lia].
        -- intros (_ & _ & T). eexists _, _, _. split; [reflexivity|]. rewrite (u64_small (he l - sz)) by lia.
           destruct (Z.leb_spec (oe - hs l) (D - sz)); [lia|]. destruct (Z.ltb_spec (D - sz) oe); [rewrite u64_small by lia; lia|lia].
      * split; [|lia]. intros (rs & re & h & H & _). destruct L; discriminate H.
    + destruct (Z.ltb_spec sz (he r - hs r)) as [WR|WR].
      * (* wide and near: it ends here *)
        assert (K : pair_found D os oe sz (l :: L) (r :: R) <-> right_taken D os sz r).
        { split.
          - intros (k & x & y & X & Y & P & Q). destruct k as [|k].
            + injection X as <-. injection Y as <-. destruct Q as [Q|[Q _]]; [exact Q|]. exfalso. apply Q. split; [unfold right_near; lia|exact WR].
            + destruct (P 0%nat l r ltac:(lia) eq_refl eq_refl) as (_ & C & _). unfold wide in C; lia.
          - intros T. exists 0%nat, l, r. split; [reflexivity|]. split; [reflexivity|]. split; [intros j l' r' J; lia|]. left. exact T. }
        rewrite K. clear K. unfold right_taken. split.
        -- intros (rs & re & h & H & N). injection H as <- <- <-. split; [|exact WR].
           destruct (Z.leb_spec (he r - os) (D - sz)); [lia|]. rewrite u64_small in N by lia. lia.
        -- intros (T & _). eexists _, _, _. split; [reflexivity|]. destruct (Z.leb_spec (he r - os) (D - sz)); [rewrite u64_small by lia; lia|].
           rewrite u64_small by lia. lia.
      * assert (NR : ~ (right_near D os sz r /\ wide sz r) /\ ~ right_taken D os sz r) by (unfold right_taken, wide; clear - WR; lia).
        destruct (Z.ltb_spec (D - sz) (oe - he l)) as [FL|FL].
        -- split; [intros (rs & re & h & H & _); discriminate|]. intros (k & x & y & X & Y & P & Q). exfalso. destruct k as [|k].
           ++ injection X as <-. injection Y as <-. destruct Q as [Q|[_ (Q & _)]]; [tauto|unfold left_near in Q; lia].
           ++ destruct (P 0%nat l r ltac:(lia) eq_refl eq_refl) as (_ & _ & C & _). unfold left_near in C. lia.
        -- destruct (Z.ltb_spec sz (he l - hs l)) as [WL|WL].
           ++ assert (K : pair_found D os oe sz (l :: L) (r :: R) <-> left_taken D oe sz l).
              { split.
                - intros (k & x & y & X & Y & P & Q). destruct k as [|k].
                  + injection X as <-. injection Y as <-. tauto.
                  + destruct (P 0%nat l r ltac:(lia) eq_refl eq_refl) as (_ & _ & _ & C). unfold wide in C; lia.
                - intros T. exists 0%nat, l, r. split; [reflexivity|]. split; [reflexivity|]. split; [intros j l' r' J; lia|]. tauto. }
              rewrite K. clear K. unfold left_taken, left_near, wide. split.
              ** intros (rs & re & h & H & N). injection H as <- <- <-. split; [lia|split; [lia|]]. rewrite (u64_small (he l - sz)) in N by lia.
                 destruct (Z.leb_spec (oe - hs l) (D - sz)); [left; lia|right]. destruct (Z.ltb_spec (D - sz) oe); [rewrite u64_small in N by lia; lia|lia].
              ** intros (_ & _ & T). eexists _, _, _. split; [reflexivity|]. rewrite (u64_small (he l - sz)) by lia.
                 destruct (Z.leb_spec (oe - hs l) (D - sz)); [lia|]. destruct (Z.ltb_spec (D - sz) oe); [rewrite u64_small by lia; lia|lia].
           ++ rewrite (IH R); [|intros h I; apply HL; right; exact I|intros h I; apply HR; right; exact I]. split.
              ** intros (k & x & y & X & Y & P & Q). exists (S k), x, y. split; [exact X|split; [exact Y|split; [|exact Q]]].
                 intros [|j] l' r' J A B; [|exact (P j l' r' ltac:(lia) A B)]. injection A as <-. injection B as <-. unfold passed, right_near, left_near, wide. lia.
              ** intros (k & x & y & X & Y & P & Q). destruct k as [|k].
                 --- injection X as <-. injection Y as <-. destruct Q as [Q|[_ (_ & Q & _)]]; [tauto|unfold wide in Q; lia].
                 --- exists k, x, y. split; [exact X|split; [exact Y|split; [|exact Q]]]. intros j l' r' J A B. exact (P (S j) l' r' ltac:(lia) A B).
Qed.

(** The address given is none of the page-aligned ones exactly if nothing was found. *)
Lemma aligned_not_all_ones pg x : page_ok pg -> Z.shiftl (Z.shiftr x (Z.log2 pg)) (Z.log2 pg) <> 2 ^ 64 - 1.
Proof.
  intros Hpg C. pose proof (page_down_mod pg x Hpg) as M. rewrite C in M. clear C.
  destruct Hpg as (k & Hk & ->). assert (E : 2 ^ 64 = 2 ^ k * 2 ^ (64 - k)) by (rewrite <- Z.pow_add_r by lia; f_equal; lia).
  assert (P : 0 < 2 ^ (k - 1)) by (apply Z.pow_pos_nonneg; lia).
  assert (P2 : 2 ^ k = 2 * 2 ^ (k - 1)) by (rewrite <- Z.pow_succ_r by lia; f_equal; lia).
  rewrite E in M. apply Z.mod_divide in M; [|lia]. destruct M as (q & M). rewrite P2 in M.
  assert (2 * (2 ^ (k - 1) * 2 ^ (64 - k) - q * 2 ^ (k - 1)) = 1) by lia. lia.
Qed.

(** ** C60, what the search does find: it gives an address exactly if, going outwards from the object with one gap on each
    side at a time, it comes to a pair with a gap that is wide and in reach before it comes to one with a gap out of reach or
    to the last gap on one of the sides. *)
Theorem C60_found_iff : forall pg D maps mask sz c p after,
  page_ok pg -> maps_ok pg 0 maps -> pick mask maps <> [] -> size_ok pg D sz ->
  let os := first_start (pick mask maps) in let oe := last_end (pick mask maps) in oe - os <= D ->
  gaps pg 0 0 maps = c ++ p :: after -> previous_hole (pick mask (prev_ids pg 0 0 None maps)) = Some (hid p) ->
  ((exists a h, find_region pg D (gaps pg 0 0 maps) (previous_hole (pick mask (prev_ids pg 0 0 None maps))) os oe sz = (a, h) /\
      a <> 2 ^ 64 - 1)
   <-> pair_found D os oe sz (p :: rev c) after).
Proof.
  intros pg D maps mask sz c p after Hpg Hm Hne Hsz os oe HD EG EP.
  pose proof (start_space_ok pg maps Hpg Hm) as [S1 S2 S3 S4].
  pose proof (start_object_ok pg D maps mask Hpg Hm Hne HD) as [Hob Hpr]. cbn [sp_holes sp_used start_space] in *.
  fold os oe in Hob, Hpr. pose proof (page_facts pg Hpg) as Hp. clear S3 S4.
  destruct (Hpr (hid p) EP) as (l & p' & r' & F1 & F2 & F3 & F4). rewrite F1 in EG.
  rewrite F1 in S2. destruct (around_unique _ _ _ _ _ _ EG S2 F2) as (<- & <- & <-). rewrite EP. unfold find_region. clear EG.
  assert (HA : around [] (hid p') (gaps pg 0 0 maps) = Some (rev l, p', r')).
  { rewrite F1. clear - S2. rewrite <- (app_nil_r (rev l)). generalize (@nil hole). induction l as [|x l IH]; intros acc; cbn.
    - rewrite Nat.eqb_refl. reflexivity.
    - inversion S2 as [|? ? N S2']; subst. destruct (Nat.eqb_spec (hid x) (hid p')) as [E|E].
      + exfalso. apply N. rewrite E, map_app, in_app_iff. right. left. reflexivity.
      + rewrite (IH S2' (x :: acc)). rewrite <- app_assoc. reflexivity. }
  rewrite HA. rewrite <- (walk_found pg D os oe sz (p' :: rev l) Hpg Hsz ltac:(clear - Hob; tauto)).
  - destruct (walk _ _ _ _ _ _) as [[[rs re] h]|].
    + destruct (Z.eqb_spec rs re) as [E|E].
      * split; [intros (a & h' & H & N); injection H as <- <-; contradiction|intros (x & y & z & H & N); injection H as <- <- <-; contradiction].
      * split; [intros _; exists rs, re, h; auto|]. intros _. eexists _, _. split; [reflexivity|apply aligned_not_all_ones; exact Hpg].
    + split; [intros (a & h' & H & N); injection H as <- <-; contradiction|intros (x & y & z & H & N); discriminate].
  - intros h Hi. rewrite F1 in S1. assert (Hi' : In h (l ++ p' :: r')) by (rewrite in_app_iff; cbn in Hi |- *; rewrite <- in_rev in Hi; tauto).
    split; [apply (sorted_fine pg _ h ltac:(lia) S1 Hi')|].
    destruct Hi as [<-|Hi]; [destruct (he p' =? hs p'); lia|]. apply in_rev in Hi.
    pose proof (sorted_before pg pg l p' r' h ltac:(lia) S1 Hi) as HB.
    destruct (sorted_fine pg _ p' ltac:(lia) S1 ltac:(rewrite in_app_iff; right; left; reflexivity)) as (_ & HC & _).
    unfold edge in HB. destruct (he h =? hs h); destruct (he p' =? hs p'); lia.
  - intros h Hi. split; [apply (sorted_fine pg _ h ltac:(lia) S1); rewrite F1, in_app_iff; right; right; exact Hi|exact (F4 h Hi)].
Qed.
Print Assumptions C60_found_iff.

(** The part of the claim that holds: if the gap that follows the object is wide and begins in reach, or the one before the
    object is wide and wholly in reach, a place is found (there being a gap on the other side). *)
Theorem C60_found_partial : forall pg D maps mask sz c p r after,
  page_ok pg -> maps_ok pg 0 maps -> pick mask maps <> [] -> size_ok pg D sz ->
  let os := first_start (pick mask maps) in let oe := last_end (pick mask maps) in oe - os <= D ->
  gaps pg 0 0 maps = c ++ p :: r :: after -> previous_hole (pick mask (prev_ids pg 0 0 None maps)) = Some (hid p) ->
  (sz < he r - hs r /\ hs r - os < D - sz) \/ (sz < he p - hs p /\ oe - hs p <= D - sz /\ hs r - os <> D - sz) ->
  exists a h, find_region pg D (gaps pg 0 0 maps) (previous_hole (pick mask (prev_ids pg 0 0 None maps))) os oe sz = (a, h) /\
    a <> 2 ^ 64 - 1.
Proof.
  intros pg D maps mask sz c p r after Hpg Hm Hne Hsz os oe HD EG EP H.
  apply (C60_found_iff pg D maps mask sz c p (r :: after) Hpg Hm Hne Hsz HD EG EP). fold os oe.
  exists 0%nat, p, r. split; [reflexivity|]. split; [reflexivity|]. split; [intros j l' r' J; lia|].
  destruct H as [(H1 & H2)|(H1 & H2 & H3)]; [left; split; [lia|exact H1]|].
  destruct Hsz as (_ & _ & Hz & _). unfold right_taken, right_near, left_taken, left_near, wide. lia.
Qed.
Print Assumptions C60_found_partial.

(** A map with a small gap on each side, and then wide ones on both sides: the second pair is where the place is found;
    without the last mapping there is only one gap after the object and nothing is found. *)
Example C60_found_case :
  let maps := [(0x400000, 0x401000); (0x404000, 0x405000); (0x408000, 0x409000); (0x800000, 0x801000)] in
  let mask := [false; true; false; false] in
  maps_ok 4096 0 maps /\ size_ok 4096 dist_x86 0x2000 /\ pick mask maps <> [] /\
  (exists c p r after, gaps 4096 0 0 maps = c ++ p :: r :: after /\
     previous_hole (pick mask (prev_ids 4096 0 0 None maps)) = Some (hid p) /\ length c = 1%nat /\ length after = 1%nat) /\
  find_region 4096 dist_x86 (gaps 4096 0 0 maps) (previous_hole (pick mask (prev_ids 4096 0 0 None maps)))
    (first_start (pick mask maps)) (last_end (pick mask maps)) 0x2000
  = (0x40a000, Some {| hid := 3; hs := 0x40a000; he := 0x7ff000 |}) /\
  let maps' := firstn 3 maps in
  fst (find_region 4096 dist_x86 (gaps 4096 0 0 maps') (previous_hole (pick mask (prev_ids 4096 0 0 None maps')))
    (first_start (pick mask maps')) (last_end (pick mask maps')) 0x2000) = 2 ^ 64 - 1.
Proof.
  cbv zeta. split; [cbn; repeat split; lia|]. split; [unfold size_ok, dist_x86; repeat split; lia|]. split; [discriminate|].
  split; [|split; vm_compute; reflexivity].
  eexists [_], _, _, [_]. split; [vm_compute; reflexivity|]. split; vm_compute; auto.
Qed.
