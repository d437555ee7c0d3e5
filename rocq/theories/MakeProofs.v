From Coq Require Import String.
From Verif Require Import Base BaseProofs StorageModel StorageProofs MakeModel.
Open Scope list_scope.

Lemma align16_spec n : 0 <= n -> n <= align16 n < n + 16 /\ align16 n mod 16 = 0.
Proof.
  intros H. unfold align16.
  assert (E : Z.land (n + 15) (Z.lnot 15) = (n + 15) - (n + 15) mod 16).
  { rewrite <- Z.ldiff_land. change 15 with (Z.ones 4) at 2. rewrite Z.ldiff_ones_r by lia.
    rewrite Z.shiftr_div_pow2, Z.shiftl_mul_pow2 by lia. change (2 ^ 4) with 16.
    pose proof (Z.div_mod (n + 15) 16). lia. }
  rewrite E. pose proof (Z.mod_pos_bound (n + 15) 16). split; [lia|].
  rewrite Z.mod_divide by lia. exists ((n + 15) / 16).
  pose proof (Z.div_mod (n + 15) 16). lia.
Qed.

Lemma zlen_repeat (x : Z) n : zlen (repeat x n) = Z.of_nat n.
Proof. unfold zlen. rewrite repeat_length. reflexivity. Qed.

Lemma upto_nul_id s : Forall (fun c => c <> 0) s -> upto_nul s = s.
Proof.
  induction 1 as [|c s N F IH]; [reflexivity|]. cbn [upto_nul].
  destruct (Z.eqb_spec c 0); [contradiction|]. rewrite IH. reflexivity.
Qed.
Lemma upto_nul_app s t : Forall (fun c => c <> 0) s -> upto_nul (s ++ 0 :: t) = s.
Proof.
  induction 1 as [|c s N F IH]; [reflexivity|]. cbn [upto_nul app].
  destruct (Z.eqb_spec c 0); [contradiction|]. rewrite IH. reflexivity.
Qed.

Lemma strncpy_zlen s n : 0 <= n -> zlen (strncpy s n) = n.
Proof.
  intros H. unfold strncpy. rewrite zlen_app, zlen_repeat.
  assert (zlen (firstn (Z.to_nat n) (upto_nul s)) <= n).
  { unfold zlen. rewrite firstn_length. lia. }
  pose proof (zlen_nonneg (firstn (Z.to_nat n) (upto_nul s))). lia.
Qed.
Lemma strncpy_short s n : Forall (fun c => c <> 0) s -> zlen s <= n ->
  exists k, strncpy s n = s ++ repeat 0 k.
Proof.
  intros F L. unfold strncpy. rewrite upto_nul_id by exact F.
  rewrite firstn_all2 by (unfold zlen in L; lia). eauto.
Qed.

Lemma slice_mid a b c n m : zlen a = n -> zlen b = m -> slice (a ++ b ++ c) n m = Some b.
Proof.
  intros <- <-. unfold slice. pose proof (zlen_nonneg a). pose proof (zlen_nonneg b).
  pose proof (zlen_nonneg c). rewrite !zlen_app.
  replace ((0 <=? zlen a) && (0 <=? zlen b) && (zlen a + zlen b <=? zlen a + (zlen b + zlen c)))
    with true by lia.
  f_equal. unfold zlen. rewrite !Nat2Z.id, skipn_app, skipn_all, Nat.sub_diag. cbn [app skipn].
  rewrite firstn_app, firstn_all, Nat.sub_diag. cbn [firstn]. apply app_nil_r.
Qed.

(** The header in four parts. *)
Lemma header_zlen size bid id now : zlen (make_header size bid id now) = 504.
Proof.
  unfold make_header. rewrite !zlen_app, !strncpy_zlen, !le_bytes_zlen, !zlen_repeat by lia.
  reflexivity.
Qed.

Lemma header_magic size bid id now : exists r,
  make_header size bid id now = (str "KPATCH1" ++ [0]) ++ r.
Proof. eexists. unfold make_header. rewrite <- app_assoc. reflexivity. Qed.
Lemma header_id size bid id now : exists a r,
  make_header size bid id now = a ++ (strncpy id 7 ++ [0]) ++ r /\ zlen a = 8.
Proof.
  exists (str "KPATCH1" ++ [0]). eexists. split; [|reflexivity].
  unfold make_header. rewrite <- !app_assoc. reflexivity.
Qed.
Lemma header_bid size bid id now : exists a r,
  make_header size bid id now = a ++ (strncpy bid 40 ++ [0]) ++ r /\ zlen a = 88.
Proof.
  exists (str "KPATCH1" ++ [0] ++ strncpy id 7 ++ [0] ++ [0; 0] ++ repeat 0 6 ++ repeat 0 64). eexists.
  split; [|rewrite !zlen_app, strncpy_zlen, !zlen_repeat by lia; reflexivity].
  unfold make_header. rewrite <- !app_assoc. reflexivity.
Qed.
Lemma header_koff size bid id now : exists a r,
  make_header size bid id now = a ++ le_bytes 4 504 ++ r /\ zlen a = 152.
Proof.
  exists (str "KPATCH1" ++ [0] ++ strncpy id 7 ++ [0] ++ [0; 0] ++ repeat 0 6 ++ repeat 0 64
          ++ strncpy bid 40 ++ [0] ++ repeat 0 7 ++ le_bytes 8 now ++ le_bytes 4 0 ++ le_bytes 4 0).
  eexists.
  split; [|rewrite !zlen_app, !strncpy_zlen, !zlen_repeat, !le_bytes_zlen by lia; reflexivity].
  unfold make_header. rewrite <- !app_assoc. reflexivity.
Qed.
Lemma header_total size bid id now : exists a r,
  make_header size bid id now = a ++ le_bytes 4 (504 + align16 size) ++ r /\ zlen a = 160.
Proof.
  exists (str "KPATCH1" ++ [0] ++ strncpy id 7 ++ [0] ++ [0; 0] ++ repeat 0 6 ++ repeat 0 64
          ++ strncpy bid 40 ++ [0] ++ repeat 0 7 ++ le_bytes 8 now ++ le_bytes 4 0 ++ le_bytes 4 0
          ++ le_bytes 4 504 ++ le_bytes 4 504).
  eexists.
  split; [|rewrite !zlen_app, !strncpy_zlen, !zlen_repeat, !le_bytes_zlen by lia; reflexivity].
  unfold make_header. rewrite <- !app_assoc. reflexivity.
Qed.
Lemma header_time size bid id now : exists a r,
  make_header size bid id now = a ++ le_bytes 8 now ++ r /\ zlen a = 136.
Proof.
  exists (str "KPATCH1" ++ [0] ++ strncpy id 7 ++ [0] ++ [0; 0] ++ repeat 0 6 ++ repeat 0 64
          ++ strncpy bid 40 ++ [0] ++ repeat 0 7).
  eexists.
  split; [|rewrite !zlen_app, !strncpy_zlen, !zlen_repeat by lia; reflexivity].
  unfold make_header. rewrite <- !app_assoc. reflexivity.
Qed.

Lemma body_zlen input : zlen (make_body input) = align16 (zlen input).
Proof.
  pose proof (zlen_nonneg input) as N. pose proof (align16_spec _ N).
  unfold make_body. rewrite zlen_app, zlen_repeat. lia.
Qed.

(** ** Success: both writes were complete *)
Definition MAX_RW := 2147479552.
Definition write_res (n w : Z) : Prop := -1 <= w <= Z.min n MAX_RW.

Lemma s32_small x : - 2 ^ 31 <= x < 2 ^ 31 -> s32 x = x.
Proof.
  intros H. unfold s32, sext. change (32 - 1) with 31.
  destruct (Z.ltb_spec (x mod 2 ^ 32) (2 ^ 31)) as [L|L].
  - destruct (Z_lt_ge_dec x 0) as [C|C].
    + assert (x mod 2 ^ 32 = x + 2 ^ 32) by (symmetry; apply Zmod_unique with (-1); lia). lia.
    + apply Z.mod_small. lia.
  - destruct (Z_lt_ge_dec x 0) as [C|C].
    + assert (x mod 2 ^ 32 = x + 2 ^ 32) by (symmetry; apply Zmod_unique with (-1); lia). lia.
    + rewrite Z.mod_small in L by lia. lia.
Qed.

Lemma make_file_spec input bid id now w1 w2 : zlen input < 2 ^ 62 ->
  write_res 504 w1 -> write_res (align16 (zlen input)) w2 ->
  make_file input bid id now w1 w2 =
    (if (w1 =? 504) && (w2 =? align16 (zlen input)) then 0 else -1,
     firstn (Z.to_nat w1) (make_header (zlen input) bid id now) ++
     firstn (Z.to_nat w2) (make_body input)).
Proof.
  intros L W1 W2. pose proof (zlen_nonneg input) as N. pose proof (align16_spec _ N) as A.
  unfold make_file, write_res, MAX_RW in *. rewrite (s32_small w1) by lia.
  rewrite s32_small by lia. unfold u64. rewrite (Z.mod_small (504 + _)) by lia.
  destruct (Z.eqb_spec ((w1 + w2) mod 2 ^ 64) (504 + align16 (zlen input))) as [E|E]; cbn [negb].
  - assert (w1 + w2 = 504 + align16 (zlen input)).
    { destruct (Z_lt_ge_dec (w1 + w2) 0) as [C|C].
      - assert ((w1 + w2) mod 2 ^ 64 = w1 + w2 + 2 ^ 64) by (symmetry; apply Zmod_unique with (-1); lia).
        lia.
      - rewrite Z.mod_small in E by lia. exact E. }
    replace ((w1 =? 504) && (w2 =? align16 (zlen input))) with true by lia. reflexivity.
  - destruct (Z.eqb_spec w1 504) as [->|]; [|reflexivity].
    destruct (Z.eqb_spec w2 (align16 (zlen input))) as [->|]; [|reflexivity].
    exfalso. apply E. apply Z.mod_small. lia.
Qed.

(** The file that results. *)
Definition made (input bid id : list Z) (now : Z) : list Z :=
  make_header (zlen input) bid id now ++ make_body input.

Lemma make_main_ok bid id input ok now w1 w2 d : zlen input < 2 ^ 62 ->
  write_res 504 w1 -> write_res (align16 (zlen input)) w2 ->
  make_main (Some bid) (Some id) (Some input) ok now w1 w2 = (0, Some d) ->
  w1 = 504 /\ w2 = align16 (zlen input) /\ d = made input bid id now /\
  align16 (zlen input) <= MAX_RW /\ input <> [] /\ id <> [].
Proof.
  intros L W1 W2 E. unfold make_main in E. destruct id as [|c id]; [discriminate|].
  destruct input as [|x input]; [discriminate|]. destruct ok; [|discriminate].
  rewrite make_file_spec in E by assumption. set (inp := x :: input) in *.
  destruct (Z.eqb_spec w1 504) as [->|]; [|discriminate].
  destruct (Z.eqb_spec w2 (align16 (zlen inp))) as [->|]; [|discriminate].
  cbn [andb] in E. remember (make_header (zlen inp) bid (c :: id) now) as h eqn:Eh.
  assert (E1 : firstn (Z.to_nat 504) h = h).
  { apply firstn_all2. pose proof (header_zlen (zlen inp) bid (c :: id) now) as Hh.
    rewrite <- Eh in Hh. unfold zlen in Hh. lia. }
  assert (E2 : firstn (Z.to_nat (align16 (zlen inp))) (make_body inp) = make_body inp).
  { apply firstn_all2. pose proof (body_zlen inp) as Hb. unfold zlen in *. lia. }
  rewrite E1, E2 in E. apply (f_equal snd) in E. cbn [snd] in E. apply some_inj in E.
  split; [reflexivity|]. split; [reflexivity|]. split; [|split; [|split; discriminate]].
  - unfold made. rewrite <- Eh. symmetry. exact E.
  - unfold write_res, MAX_RW in *. lia.
Qed.

Section Made.
Variables (input bid id : list Z) (now : Z).
Hypothesis (Sz : align16 (zlen input) <= MAX_RW).
Let d := made input bid id now.

Lemma made_zlen : zlen d = 504 + align16 (zlen input).
Proof. unfold d, made. rewrite zlen_app, header_zlen, body_zlen. reflexivity. Qed.

Lemma made_slice a x r n m : make_header (zlen input) bid id now = a ++ x ++ r -> zlen a = n ->
  zlen x = m -> slice d n m = Some x.
Proof.
  intros E En Em. unfold d, made. rewrite E, <- !app_assoc. apply slice_mid; assumption.
Qed.

Lemma made_magic : slice d 0 8 = Some (str "KPATCH1" ++ [0]).
Proof.
  destruct (header_magic (zlen input) bid id now) as [r E].
  apply (made_slice [] _ r); [exact E|reflexivity|reflexivity].
Qed.
Lemma made_id : Forall (fun c => c <> 0) id -> zlen id <= 7 -> exists x, slice d 8 8 = Some x /\ upto_nul x = id.
Proof.
  intros F L. destruct (header_id (zlen input) bid id now) as (a & r & E & La).
  exists (strncpy id 7 ++ [0]). split.
  - apply (made_slice a _ r); [exact E|exact La|]. rewrite zlen_app, strncpy_zlen by lia. reflexivity.
  - destruct (strncpy_short id 7 F L) as [k ->]. rewrite <- app_assoc.
    destruct k as [|k]; cbn [repeat app]; apply upto_nul_app; exact F.
Qed.
Lemma made_bid : Forall (fun c => c <> 0) bid -> zlen bid = 40 -> slice d 88 41 = Some (bid ++ [0]).
Proof.
  intros F L. destruct (header_bid (zlen input) bid id now) as (a & r & E & La).
  destruct (strncpy_short bid 40 F ltac:(lia)) as [k Ek].
  assert (k = 0)%nat.
  { pose proof (strncpy_zlen bid 40 ltac:(lia)) as Z. rewrite Ek, zlen_app, zlen_repeat in Z. lia. }
  subst k. cbn [repeat] in Ek. rewrite app_nil_r in Ek. rewrite Ek in E.
  apply (made_slice a _ r); [exact E|exact La|]. rewrite zlen_app, L. reflexivity.
Qed.
Lemma made_koff : read_le d 152 4 = Some 504.
Proof.
  unfold read_le. destruct (header_koff (zlen input) bid id now) as (a & r & E & La).
  rewrite (made_slice a (le_bytes 4 504) r 152 4 E La) by reflexivity. reflexivity.
Qed.
Lemma made_total : read_le d 160 4 = Some (504 + align16 (zlen input)).
Proof.
  unfold read_le. destruct (header_total (zlen input) bid id now) as (a & r & E & La).
  rewrite (made_slice a _ r 160 4 E La) by (apply le_bytes_zlen). f_equal.
  rewrite le_val_bytes. apply Z.mod_small. pose proof (align16_spec _ (zlen_nonneg input)).
  pose proof (zlen_nonneg input). unfold MAX_RW in Sz. change (8 * Z.of_nat 4) with 32. lia.
Qed.
Lemma made_time : 0 <= now < 2 ^ 64 -> read_le d 136 8 = Some now.
Proof.
  intros H. unfold read_le. destruct (header_time (zlen input) bid id now) as (a & r & E & La).
  rewrite (made_slice a _ r 136 8 E La) by (apply le_bytes_zlen). f_equal.
  rewrite le_val_bytes. apply Z.mod_small. exact H.
Qed.
Lemma made_content : slice d 504 (zlen input) = Some input.
Proof. unfold d, made, make_body. apply slice_mid; [apply header_zlen|reflexivity]. Qed.
Lemma made_padding : exists k, (k < 16)%nat /\
  d = make_header (zlen input) bid id now ++ input ++ repeat 0 k.
Proof.
  exists (Z.to_nat (align16 (zlen input) - zlen input)). split; [|reflexivity].
  pose proof (align16_spec _ (zlen_nonneg input)). lia.
Qed.
Lemma made_sub o n x : slice input o n = Some x -> slice d (504 + o) n = Some x.
Proof.
  intros E. apply slice_inv in E as (O & N & B & Lx & Ex).
  assert (Ei : input = firstn (Z.to_nat o) input ++ x ++ skipn (Z.to_nat n) (skipn (Z.to_nat o) input)).
  { rewrite Ex, firstn_skipn, firstn_skipn. reflexivity. }
  assert (La : zlen (firstn (Z.to_nat o) input) = o) by (unfold zlen in *; rewrite firstn_length; lia).
  set (a := firstn (Z.to_nat o) input) in *.
  unfold d, made, make_body. rewrite Ei at 2. rewrite <- !app_assoc, app_assoc.
  apply slice_mid; [|exact Lx]. rewrite zlen_app, header_zlen, La. reflexivity.
Qed.
End Made.

(** The header of a relocatable ELF-64 file whose section headers have the right size. *)
Definition elf_rel (d : list Z) : Prop :=
  slice d 0 4 = Some [127; 69; 76; 70] /\ read_le d 16 2 = Some 1 /\ read_le d 58 2 = Some 64.

Lemma made_verify input bid id now : align16 (zlen input) <= MAX_RW -> 64 <= zlen input ->
  (verify (made input bid id now) = Some true <-> elf_rel input).
Proof.
  intros Sz L. set (d := made input bid id now).
  pose proof (align16_spec _ (zlen_nonneg input)) as A. pose proof (zlen_nonneg input) as N.
  destruct (slice_some input 0 4) as (x & Ex & Lx); [lia..|].
  destruct (slice_some input 16 2) as (y & Ey & Ly); [lia..|].
  destruct (slice_some input 58 2) as (z & Ez & Lz); [lia..|].
  pose proof (made_sub input bid id now _ _ _ Ex) as Sx.
  pose proof (made_sub input bid id now _ _ _ Ey) as Sy.
  pose proof (made_sub input bid id now _ _ _ Ez) as Sz'. fold d in Sx, Sy, Sz'.
  unfold verify, elf_rel, read_le. 
  pose proof (made_magic input bid id now) as Mm. pose proof (made_total input bid id now Sz) as Mt.
  pose proof (made_koff input bid id now) as Mk. unfold read_le in Mt, Mk. fold d in Mm, Mt, Mk.
  unfold off_total_size, off_kpatch_offset. rewrite Mm, Ex, Ey, Ez.
  destruct (slice d 160 4) as [t|]; [|discriminate]. destruct (slice d 152 4) as [k|]; [|discriminate].
  apply some_inj in Mt. apply some_inj in Mk. rewrite Mt, Mk.
  replace (list_eqb (str "KPATCH1" ++ [0]) (str "KPATCH1" ++ [0])) with true by reflexivity.
  cbn [negb]. unfold d at 1 2. rewrite made_zlen.
  replace (504 + align16 (zlen input) <? 504 + align16 (zlen input)) with false by lia.
  replace (504 + align16 (zlen input) <? 504 + 64) with false by lia.
  replace (504 + 0) with 504 in Sx by lia. rewrite Sx, Sy, Sz'.
  split.
  - intros E. apply some_inj in E. apply andb_prop in E as [E E3]. apply andb_prop in E as [E1 E2].
    apply list_eqb_eq in E1. subst x. apply Z.eqb_eq in E2, E3. rewrite E2, E3. auto.
  - intros (E1 & E2 & E3). apply some_inj in E1. apply some_inj in E2. apply some_inj in E3.
    rewrite E1, E2, E3. reflexivity.
Qed.

(** A file cut short is not accepted, once the sizes in its header were written. *)
Lemma cut_refused input bid id now w1 w2 : 0 < zlen input < 2 ^ 31 ->
  164 <= w1 <= 504 -> w2 <= align16 (zlen input) -> w1 + w2 < 504 + align16 (zlen input) ->
  single_init (Some (firstn (Z.to_nat w1) (make_header (zlen input) bid id now) ++
                     firstn (Z.to_nat w2) (make_body input))) = None.
Proof.
  intros Li W1 W2 W. pose proof (align16_spec _ (zlen_nonneg input)) as A.
  pose proof (zlen_nonneg input) as N.
  destruct (header_total (zlen input) bid id now) as (a & r & E & La).
  set (h := make_header (zlen input) bid id now) in *.
  set (out := firstn (Z.to_nat w1) h ++ firstn (Z.to_nat w2) (make_body input)).
  assert (Lo : zlen out < 504 + align16 (zlen input)).
  { unfold out. rewrite zlen_app. unfold zlen at 1 2. rewrite !firstn_length. lia. }
  assert (St : slice out 160 4 = Some (le_bytes 4 (504 + align16 (zlen input)))).
  { unfold out.
    assert (Eh : firstn (Z.to_nat w1) h = a ++ le_bytes 4 (504 + align16 (zlen input)) ++
                 firstn (Z.to_nat w1 - 164) r).
    { rewrite E, app_assoc, firstn_app.
      assert (L4 : length (a ++ le_bytes 4 (504 + align16 (zlen input))) = 164%nat).
      { pose proof (zlen_app a (le_bytes 4 (504 + align16 (zlen input)))) as Z.
        rewrite le_bytes_zlen, La in Z. unfold zlen at 1 in Z. lia. }
      rewrite L4, firstn_all2 by lia. rewrite <- app_assoc. reflexivity. }
    rewrite Eh, <- !app_assoc. apply slice_mid; [exact La|apply le_bytes_zlen]. }
  unfold single_init, open_fd. destruct (zlen out <? hdr_size); [reflexivity|].
  unfold verify, read_le, off_total_size, off_kpatch_offset. rewrite St.
  destruct (slice out 0 8) as [m|]; [|reflexivity]. destruct (slice out 152 4) as [k|]; [|reflexivity].
  rewrite le_val_bytes. change (8 * Z.of_nat 4) with 32.
  rewrite (Z.mod_small (504 + _)) by lia.
  destruct (negb (list_eqb m (str "KPATCH1" ++ [0]))); [reflexivity|].
  replace (zlen out <? 504 + align16 (zlen input)) with true by lia. reflexivity.
Qed.
