(** The header fields and the layout of the region (C07). *)
From Coq Require Import ZArith List Bool Lia ZifyBool ZifyNat.
From Verif Require Import Base BaseProofs RemoteModel JumpModel EngineModel EngineSpec.
Import ListNotations.
Open Scope Z_scope.
Ltac Zify.zify_post_hook ::= Z.div_mod_to_equations.

Lemma list_ext (l1 l2 : list Z) : length l1 = length l2 ->
  (forall k, (k < length l1)%nat -> nth k l1 0 = nth k l2 0) -> l1 = l2.
Proof. intros. apply (nth_ext l1 l2 0 0); auto. Qed.

Lemma put_length h off bs : (off + length bs <= length h)%nat ->
  length (put h off bs) = length h.
Proof.
  intros H. unfold put. rewrite !app_length, firstn_length, skipn_length. lia.
Qed.

Lemma nth_put_in h off bs k : (off + length bs <= length h)%nat ->
  (off <= k < off + length bs)%nat -> nth k (put h off bs) 0 = nth (k - off) bs 0.
Proof.
  intros H Hk. unfold put.
  rewrite app_nth2 by (rewrite firstn_length; lia).
  rewrite firstn_length, Nat.min_l by lia. rewrite app_nth1 by lia. reflexivity.
Qed.

Lemma nth_put_out h off bs k : (off + length bs <= length h)%nat ->
  (k < off \/ off + length bs <= k)%nat -> nth k (put h off bs) 0 = nth k h 0.
Proof.
  intros H Hk. unfold put. destruct (Nat.lt_ge_cases k off) as [C|C].
  - rewrite app_nth1 by (rewrite firstn_length; lia). apply nth_firstn. lia.
  - rewrite app_nth2 by (rewrite firstn_length; lia).
    rewrite firstn_length, Nat.min_l by lia. rewrite app_nth2 by lia.
    rewrite nth_skipn. f_equal. lia.
Qed.

Lemma window_ext (h h' : list Z) off n : (off + n <= length h)%nat -> (off + n <= length h')%nat ->
  (forall k, (off <= k < off + n)%nat -> nth k h 0 = nth k h' 0) ->
  firstn n (skipn off h) = firstn n (skipn off h').
Proof.
  intros H H' He. apply list_ext.
  - rewrite !firstn_length, !skipn_length. lia.
  - intros k Hk. rewrite firstn_length, skipn_length in Hk.
    rewrite !nth_firstn, !nth_skipn by lia. apply He. lia.
Qed.

Lemma field_ext h h' off n : (off + n <= length h)%nat -> (off + n <= length h')%nat ->
  (forall k, (off <= k < off + n)%nat -> nth k h 0 = nth k h' 0) ->
  field h off n = field h' off n.
Proof. intros. unfold field. f_equal. now apply window_ext. Qed.

Lemma field_put_same h off bs : (off + length bs <= length h)%nat ->
  field (put h off bs) off (length bs) = le_val bs.
Proof.
  intros H. unfold field. f_equal. apply list_ext.
  - rewrite firstn_length, skipn_length, put_length by lia. lia.
  - intros k Hk. rewrite firstn_length, skipn_length, put_length in Hk by lia.
    rewrite nth_firstn, nth_skipn, nth_put_in by lia. f_equal. lia.
Qed.

Lemma field_put_other h off bs off' n : (off + length bs <= length h)%nat ->
  (off' + n <= length h)%nat -> (off' + n <= off \/ off + length bs <= off')%nat ->
  field (put h off bs) off' n = field h off' n.
Proof.
  intros H H' Hd. apply field_ext; rewrite ?put_length by lia; try lia.
  intros k Hk. apply nth_put_out; lia.
Qed.

Lemma set32_length h off x : (off + 4 <= length h)%nat -> length (set32 h off x) = length h.
Proof. intros. apply put_length. rewrite le_bytes_length. lia. Qed.
Lemma set64_length h off x : (off + 8 <= length h)%nat -> length (set64 h off x) = length h.
Proof. intros. apply put_length. rewrite le_bytes_length. lia. Qed.
Lemma get32_set32 h off x : (off + 4 <= length h)%nat -> get32 (set32 h off x) off = u32 x.
Proof.
  intros. unfold get32, set32.
  replace 4%nat with (length (le_bytes 4 x)) at 2 by apply le_bytes_length.
  rewrite field_put_same by (rewrite le_bytes_length; lia). apply le_val_bytes.
Qed.
Lemma get64_set64 h off x : (off + 8 <= length h)%nat -> get64 (set64 h off x) off = u64 x.
Proof.
  intros. unfold get64, set64.
  replace 8%nat with (length (le_bytes 8 x)) at 2 by apply le_bytes_length.
  rewrite field_put_same by (rewrite le_bytes_length; lia). apply le_val_bytes.
Qed.
Lemma get32_set32_other h off off' x : (off + 4 <= length h)%nat -> (off' + 4 <= length h)%nat ->
  (off' + 4 <= off \/ off + 4 <= off')%nat -> get32 (set32 h off x) off' = get32 h off'.
Proof. intros. apply field_put_other; rewrite ?le_bytes_length; lia. Qed.
Lemma get32_set64_other h off off' x : (off + 8 <= length h)%nat -> (off' + 4 <= length h)%nat ->
  (off' + 4 <= off \/ off + 8 <= off')%nat -> get32 (set64 h off x) off' = get32 h off'.
Proof. intros. apply field_put_other; rewrite ?le_bytes_length; lia. Qed.

Lemma put_bytes_ok h off bs : bytes_ok h -> bytes_ok bs -> bytes_ok (put h off bs).
Proof.
  intros H1 H2. unfold put, bytes_ok in *. rewrite !Forall_app. repeat split; auto.
  - rewrite Forall_forall in *. intros x Hx. apply H1.
    rewrite <- (firstn_skipn off h). apply in_or_app. now left.
  - rewrite Forall_forall in *. intros x Hx. apply H1.
    rewrite <- (firstn_skipn (off + length bs) h). apply in_or_app. now right.
Qed.

Lemma field_range h off n : bytes_ok h -> 0 <= field h off n < 256 ^ Z.of_nat n.
Proof.
  intros H. unfold field.
  assert (Hb : bytes_ok (firstn n (skipn off h))).
  { unfold bytes_ok in *. rewrite Forall_forall in *. intros x Hx. apply H.
    rewrite <- (firstn_skipn off h). apply in_or_app. right.
    rewrite <- (firstn_skipn n (skipn off h)). apply in_or_app. now left. }
  pose proof (le_val_range _ Hb) as Hr. split; [lia|].
  eapply Z.lt_le_trans; [apply Hr|]. apply Z.pow_le_mono_r; [lia|].
  unfold zlen. rewrite firstn_length. lia.
Qed.

(** Everything the rest of the development needs to know about the layout. *)
Record layout_facts (A : arch) (jent pg : Z) (h : list Z) (undef off : Z) (n : nat)
                    (h' : list Z) (sz : Z) : Prop := {
  lf_len : length h' = 504%nat;
  lf_bytes : bytes_ok h';
  lf_same : forall k, (k < 164 \/ (k >= 172 /\ k < 176) \/ k >= 192)%nat -> nth k h' 0 = nth k h 0;
  lf_jmp : undef <> 0 -> get32 h' h_jmp_offset = 504;
  lf_jmp_room : undef <> 0 -> 504 + jt_size jent undef <= get32 h' h_elf_offset;
  lf_elf_lo : 504 <= get32 h' h_elf_offset;
  lf_elf_pg : get32 h' h_elf_offset mod pg = 0;
  lf_img : get32 h' h_elf_offset + (get32 h h_total_size - 504) <= get32 h' h_user_undo;
  lf_undo128 : get32 h' h_user_undo mod 128 = 0;
  lf_undo : get32 h' h_user_undo + a_hunk A * Z.of_nat n <= sz;
  lf_info : get32 h' h_user_info = off + get32 h' h_elf_offset;
  lf_total : get64 h' h_total_mem = sz;
  lf_total_size : get32 h' h_total_size = get32 h h_total_size;
  lf_sz_pg : sz mod pg = 0;
  lf_sz_small : 0 < sz < 2 ^ 32;
  lf_sz_up : round_up sz pg = sz;
  lf_jt : jt_size jent undef = 16 + undef * jent }.

Lemma layout_spec A jent pg h undef off n h' sz :
  0 < a_hunk A <= 16 -> page_ok pg -> 0 < jent <= 64 ->
  zlen h = hdr_size -> bytes_ok h -> 0 <= off -> 0 <= undef -> hdr_size <= get32 h h_total_size ->
  4096 + 4 * pg + undef * jent + get32 h h_total_size + off + a_hunk A * Z.of_nat n < 2 ^ 32 ->
  layout A jent pg h undef off n = (h', sz) ->
  layout_facts A jent pg h undef off n h' sz.
Proof.
  intros HA (k & Hk & ->) Hj Hh Hb Hoff Hun Htot Hsm HL.
  assert (Hlen : length h = 504%nat) by (unfold zlen, hdr_size in Hh; lia).
  assert (Hpg : 2 ^ 12 <= 2 ^ k <= 2 ^ 16) by (split; apply Z.pow_le_mono_r; lia).
  change (2 ^ 12) with 4096 in Hpg. change (2 ^ 16) with 65536 in Hpg.
  unfold hdr_size in *. set (T := get32 h h_total_size) in *.
  set (HN := a_hunk A * Z.of_nat n) in *.
  assert (HN0 : 0 <= HN) by (unfold HN; nia).
  assert (Huj : 0 <= undef * jent) by nia.
  change (2 ^ 32) with 4294967296 in *.
  assert (Hjt : jt_size jent undef = 16 + undef * jent).
  { unfold jt_size. apply u32_small. change (2 ^ 32) with 4294967296. lia. }
  unfold layout in HL. cbv zeta in HL. unfold hdr_size in HL. fold T in HL. fold HN in HL.
  change (round_up 504 8) with 504 in HL.
  set (J := jt_size jent undef) in *.
  assert (Hsz1 : exists sz1, (if undef =? 0 then 504 else round_up (u64 (504 + J)) (2 ^ k)) = sz1 /\
            504 <= sz1 /\ (undef <> 0 -> 504 + J <= sz1) /\ sz1 < 504 + 16 + undef * jent + 2 ^ k).
  { destruct (Z.eqb_spec undef 0) as [C|C].
    - exists 504. repeat split; try lia.
    - eexists. split; [reflexivity|].
      rewrite u64_small by (change (2 ^ 64) with 18446744073709551616; lia).
      pose proof (round_up_bounds (504 + J) k ltac:(lia) ltac:(change (2 ^ 64) with 18446744073709551616; lia) ltac:(lia)).
      lia. }
  destruct Hsz1 as (sz1 & Esz1 & Hs1 & Hs1j & Hs1u). rewrite Esz1 in HL.
  pose proof (round_up_bounds sz1 k ltac:(lia) ltac:(change (2 ^ 64) with 18446744073709551616; lia) ltac:(lia)) as [Hs2 Hs2m].
  set (sz2 := round_up sz1 (2 ^ k)) in *.
  rewrite (u64_small (sz2 + T - 504)) in HL by (change (2 ^ 64) with 18446744073709551616; lia).
  pose proof (round_up_bounds (sz2 + T - 504) 7 ltac:(lia) ltac:(change (2 ^ 64) with 18446744073709551616; change (2 ^ 7) with 128; lia) ltac:(lia)) as [Hs3 Hs3m].
  change (2 ^ 7) with 128 in *.
  set (sz3 := round_up (sz2 + T - 504) 128) in *.
  rewrite (u64_small HN) in HL by (change (2 ^ 64) with 18446744073709551616; lia).
  rewrite (u64_small (sz3 + HN)) in HL by (change (2 ^ 64) with 18446744073709551616; lia).
  pose proof (round_up_bounds (sz3 + HN) 4 ltac:(lia) ltac:(change (2 ^ 64) with 18446744073709551616; change (2 ^ 4) with 16; lia) ltac:(lia)) as [Hs4 Hs4m].
  change (2 ^ 4) with 16 in *.
  set (sz4 := round_up (sz3 + HN) 16) in *.
  pose proof (round_up_bounds sz4 k ltac:(lia) ltac:(change (2 ^ 64) with 18446744073709551616; lia) ltac:(lia)) as [Hs5 Hs5m].
  assert (Hidem : round_up (round_up sz4 (2 ^ k)) (2 ^ k) = round_up sz4 (2 ^ k)).
  { apply round_up_idem; auto; change (2 ^ 64) with 18446744073709551616; lia. }
  set (sz5 := round_up sz4 (2 ^ k)) in *.
  injection HL as Hh' Hsz. subst sz.
  set (h1 := if undef =? 0 then h else set32 h h_jmp_offset 504) in *.
  assert (L1 : length h1 = 504%nat).
  { unfold h1. destruct (undef =? 0); [exact Hlen|]. rewrite set32_length; [exact Hlen|]. unfold h_jmp_offset. lia. }
  set (h2 := set32 h1 h_elf_offset sz2) in *.
  assert (L2 : length h2 = 504%nat) by (unfold h2; rewrite set32_length; unfold h_elf_offset; lia).
  assert (E2 : get32 h2 h_elf_offset = sz2).
  { unfold h2. rewrite get32_set32 by (unfold h_elf_offset; lia). apply u32_small. change (2 ^ 32) with 4294967296. lia. }
  rewrite E2 in Hh'.
  rewrite (u64_small (off + sz2)) in Hh' by (change (2 ^ 64) with 18446744073709551616; lia).
  set (h3 := set32 h2 h_user_info (off + sz2)) in *.
  assert (L3 : length h3 = 504%nat) by (unfold h3; rewrite set32_length; unfold h_user_info; lia).
  set (h4 := set32 h3 h_user_undo sz3) in *.
  assert (L4 : length h4 = 504%nat) by (unfold h4; rewrite set32_length; unfold h_user_undo; lia).
  assert (L5 : length h' = 504%nat) by (subst h'; rewrite set64_length; unfold h_total_mem; lia).
  assert (Eelf : get32 h' h_elf_offset = sz2).
  { subst h'. rewrite get32_set64_other by (unfold h_total_mem, h_elf_offset; lia).
    unfold h4. rewrite get32_set32_other by (unfold h_user_undo, h_elf_offset; lia).
    unfold h3. rewrite get32_set32_other by (unfold h_user_info, h_elf_offset; lia). exact E2. }
  assert (Eundo : get32 h' h_user_undo = sz3).
  { subst h'. rewrite get32_set64_other by (unfold h_total_mem, h_user_undo; lia).
    unfold h4. rewrite get32_set32 by (unfold h_user_undo; lia). apply u32_small. change (2 ^ 32) with 4294967296. lia. }
  assert (Einfo : get32 h' h_user_info = off + sz2).
  { subst h'. rewrite get32_set64_other by (unfold h_total_mem, h_user_info; lia).
    unfold h4. rewrite get32_set32_other by (unfold h_user_undo, h_user_info; lia).
    unfold h3. rewrite get32_set32 by (unfold h_user_info; lia). apply u32_small. change (2 ^ 32) with 4294967296. lia. }
  assert (Emem : get64 h' h_total_mem = sz5).
  { subst h'. rewrite get64_set64 by (unfold h_total_mem; lia). apply u64_small. change (2 ^ 64) with 18446744073709551616. lia. }
  assert (Hjmp : undef <> 0 -> get32 h' h_jmp_offset = 504).
  { intros C. subst h'. rewrite get32_set64_other by (unfold h_total_mem, h_jmp_offset; lia).
    unfold h4. rewrite get32_set32_other by (unfold h_user_undo, h_jmp_offset; lia).
    unfold h3. rewrite get32_set32_other by (unfold h_user_info, h_jmp_offset; lia).
    unfold h2. rewrite get32_set32_other by (unfold h_elf_offset, h_jmp_offset; lia).
    unfold h1. destruct (Z.eqb_spec undef 0); [contradiction|].
    rewrite get32_set32 by (unfold h_jmp_offset; lia). reflexivity. }
  assert (Hsame : forall j, (j < 164 \/ (j >= 172 /\ j < 176) \/ j >= 192)%nat -> nth j h' 0 = nth j h 0).
  { intros j Hjj. subst h'. unfold h4, h3, h2, h1, set64, set32 in *.
    unfold h_total_mem, h_user_undo, h_user_info, h_elf_offset, h_jmp_offset in *.
    rewrite nth_put_out by (rewrite ?le_bytes_length; try lia).
    rewrite nth_put_out by (rewrite ?le_bytes_length; try lia).
    rewrite nth_put_out by (rewrite ?le_bytes_length; try lia).
    rewrite nth_put_out by (rewrite ?le_bytes_length; try lia).
    destruct (undef =? 0); [reflexivity|].
    rewrite nth_put_out by (rewrite ?le_bytes_length; try lia). reflexivity. }
  constructor; try assumption; rewrite ?Eelf, ?Eundo, ?Einfo; try assumption; try lia.
  - subst h'. apply put_bytes_ok; [|apply le_bytes_ok].
    apply put_bytes_ok; [|apply le_bytes_ok]. apply put_bytes_ok; [|apply le_bytes_ok].
    apply put_bytes_ok; [|apply le_bytes_ok]. unfold h1. destruct (undef =? 0); [exact Hb|].
    apply put_bytes_ok; [exact Hb|apply le_bytes_ok].
  - unfold get32, T, get32. apply field_ext; unfold h_total_size; try lia.
    intros j Hjj. apply Hsame. lia.
Qed.
