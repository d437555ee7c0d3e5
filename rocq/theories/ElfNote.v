(** Proofs about the headers and the build id read from the patient. *)
From Verif Require Import Base BaseProofs StorageProofs RelocModel ElfModel ElfSpec ElfJump.

Lemma read_slice m a n buf off bs :
  mread m a n = Some buf -> holds m (a + off) bs -> 0 <= off ->
  off + zlen bs <= Z.of_nat n -> slice buf off (zlen bs) = Some bs.
Proof.
  intros R H H0 H1. apply mread_spec in R as [L R].
  pose proof (zlen_nonneg bs) as Hz.
  destruct (slice_some buf off (zlen bs)) as (x & E & Lx); [lia..|unfold zlen in *; lia|].
  rewrite E. f_equal. apply slice_inv in E as (_ & _ & _ & _ & ->).
  apply (nth_ext _ _ 0 0); [unfold zlen in *; lia|].
  intros k Hk. assert (Hk' : (k < length bs)%nat) by (unfold zlen in *; lia).
  rewrite nth_firstn by (unfold zlen; lia). rewrite nth_skipn.
  destruct (nth_error bs k) as [b|] eqn:E.
  2:{ apply nth_error_None in E. lia. }
  specialize (H k b E). rewrite R in H by (unfold in_range, zlen in *; lia).
  apply some_inj in H. rewrite (nth_error_nth _ _ 0 E), <- H. f_equal. lia.
Qed.

Lemma field_read m a n buf off k x :
  mread m a n = Some buf -> holds m (a + off) (le_bytes k x) -> 0 <= off ->
  off + Z.of_nat k <= Z.of_nat n -> 0 <= x < 256 ^ Z.of_nat k ->
  field buf off (Z.of_nat k) = Some x.
Proof.
  intros R H H0 H1 Hx. unfold field.
  rewrite <- (le_bytes_zlen k x) in *. rewrite (read_slice _ _ _ _ _ _ R H H0 H1).
  rewrite le_val_bytes. f_equal. apply Z.mod_small. rewrite le_bytes_zlen in Hx. exact Hx.
Qed.

(** ** Build id *)

Definition aligned (n : note) : Prop :=
  zlen (nt_name n) mod 4 = 0 /\ zlen (nt_desc n) mod 4 = 0.

Lemma pad4_aligned n : n mod 4 = 0 -> pad4 n = [].
Proof.
  intros H. unfold pad4. replace ((- n) mod 4) with 0; [reflexivity|].
  symmetry. apply Z.mod_opp_l_z; [lia|exact H].
Qed.

Lemma enc_len n : aligned n -> zlen (enc_note n) = 12 + zlen (nt_name n) + zlen (nt_desc n).
Proof.
  intros [H1 H2]. unfold enc_note. rewrite (pad4_aligned _ H1), (pad4_aligned _ H2).
  rewrite !zlen_app, !le_bytes_zlen, !zlen_nil. lia.
Qed.

Lemma enc_len_ge n : 12 <= zlen (enc_note n).
Proof.
  unfold enc_note. rewrite !zlen_app, !le_bytes_zlen.
  pose proof (zlen_nonneg (nt_name n)). pose proof (zlen_nonneg (nt_desc n)).
  pose proof (zlen_nonneg (pad4 (zlen (nt_name n)))).
  pose proof (zlen_nonneg (pad4 (zlen (nt_desc n)))). lia.
Qed.

(** The fields of a note read through the 128-byte buffer. *)
Lemma note_fields m a n buf :
  note_ok n -> zlen (enc_note n) <= 128 ->
  mem_read m a NOTE_BUF = Some buf -> holds m a (enc_note n) ->
  field buf 0 4 = Some (zlen (nt_name n)) /\ field buf 4 4 = Some (zlen (nt_desc n)) /\
  field buf 8 4 = Some (nt_type n) /\
  (zlen (nt_name n) = 4 -> slice buf 12 4 = Some (nt_name n) /\
     slice buf 16 (zlen (nt_desc n)) = Some (nt_desc n)) /\ zlen buf = 128.
Proof.
  intros (On & Od & Ot) L R H. unfold mem_read in R. change (Z.to_nat NOTE_BUF) with 128%nat in R.
  assert (L' : zlen (nt_name n) + zlen (nt_desc n) <= 128).
  { unfold enc_note in L. rewrite !zlen_app, !le_bytes_zlen in L.
    pose proof (zlen_nonneg (pad4 (zlen (nt_name n)))).
    pose proof (zlen_nonneg (pad4 (zlen (nt_desc n)))). lia. }
  pose proof (zlen_nonneg (nt_name n)) as Z1. pose proof (zlen_nonneg (nt_desc n)) as Z2.
  unfold enc_note in H.
  apply holds_app in H as [H1 H]. apply holds_app in H as [H2 H]. apply holds_app in H as [H3 H].
  rewrite !le_bytes_zlen in *. change (Z.of_nat 4) with 4 in *.
  assert (P : 256 ^ Z.of_nat 4 = 4294967296) by reflexivity.
  split; [|split; [|split; [|split]]].
  - apply (field_read m a 128 buf 0 4); [exact R| |lia|lia|lia].
    rewrite Z.add_0_r. exact H1.
  - apply (field_read m a 128 buf 4 4); [exact R|exact H2|lia|lia|lia].
  - apply (field_read m a 128 buf 8 4); [exact R| |lia|lia|lia].
    replace (a + 8) with (a + 4 + 4) by lia. exact H3.
  - intros E4. apply holds_app in H as [H4 H]. apply holds_app in H as [_ H].
    apply holds_app in H as [H5 _].
    split.
    + rewrite <- E4. apply (read_slice m a 128 buf 12); [exact R| |lia|lia].
      replace (a + 12) with (a + 4 + 4 + 4) by lia. exact H4.
    + apply (read_slice m a 128 buf 16); [exact R| |lia|].
      * replace (a + 16) with (a + 4 + 4 + 4 + zlen (nt_name n) + zlen (pad4 (zlen (nt_name n)))).
        { exact H5. }
        rewrite E4. change (zlen (pad4 4)) with 0. lia.
      * unfold enc_note in L. rewrite !zlen_app, !le_bytes_zlen in L.
        pose proof (zlen_nonneg (pad4 (zlen (nt_name n)))).
        pose proof (zlen_nonneg (pad4 (zlen (nt_desc n)))). lia.
  - apply mread_length in R. unfold zlen. lia.
Qed.

(** Going over notes that are not the wanted one. *)
Lemma walk_over m start ns : forall fuel off last,
  Forall (fun n => note_ok n /\ aligned n /\ ~ build_id_note n) ns ->
  holds m (start + off) (enc_notes ns) ->
  0 <= start -> 0 <= off -> off + zlen (enc_notes ns) <= last -> last - off <= 128 ->
  start + last < 2 ^ 64 ->
  (forall x, in_range x (start + off) (last - off + 128) -> m x <> None) ->
  note_walk m start (length ns + fuel) off last
  = note_walk m start fuel (off + zlen (enc_notes ns)) last.
Proof.
  induction ns as [|n ns IH]; intros fuel off last F H S0 O0 L1 L2 W M.
  - cbn. rewrite Z.add_0_r. reflexivity.
  - inversion F as [|? ? (Ok & Al & Nb) F']; subst. cbn [enc_notes flat_map] in *.
    fold (enc_notes ns) in *. rewrite zlen_app in *.
    apply holds_app in H as [Hn Hr].
    pose proof (enc_len_ge n) as G. pose proof (zlen_nonneg (enc_notes ns)) as G2.
    cbn [length Nat.add note_walk].
    assert (E1 : (last <=? off) = false) by lia. rewrite E1.
    rewrite (u64_small (start + off)) by lia.
    destruct (mread_some m (start + off) 128) as [buf R].
    { intros x Hx. apply M. unfold in_range in *. lia. }
    unfold mem_read. change (Z.to_nat NOTE_BUF) with 128%nat. rewrite R.
    destruct (note_fields m (start + off) n buf Ok) as (F1 & F2 & F3 & F4 & Lb);
      [lia|exact R|exact Hn|].
    rewrite F1, F2, F3. destruct (slice buf 12 4) as [nm|] eqn:Enm.
    2:{ destruct (slice_some buf 12 4) as (? & ? & _); [lia..|congruence]. }
    destruct ((zlen (nt_name n) =? 4) && list_eqb nm [71; 78; 85; 0]
              && (nt_type n =? NT_GNU_BUILD_ID)) eqn:C.
    { exfalso. apply Nb. apply andb_prop in C as [C C3]. apply andb_prop in C as [C1 C2].
      apply Z.eqb_eq in C1. apply Z.eqb_eq in C3. apply list_eqb_eq in C2.
      destruct (F4 C1) as [F5 _]. split; [congruence|exact C3]. }
    assert (E2 : u64 (off + (u32 (zlen (nt_name n) + zlen (nt_desc n)) + 12))
                 = off + zlen (enc_note n)).
    { rewrite (enc_len n Al) in *. pose proof (zlen_nonneg (nt_name n)).
      pose proof (zlen_nonneg (nt_desc n)).
      rewrite u32_small by lia. rewrite u64_small by lia. lia. }
    rewrite E2. rewrite IH; auto; try lia.
    + rewrite Z.add_assoc. reflexivity.
    + rewrite Z.add_assoc. exact Hr.
    + intros x Hx. apply M. unfold in_range in *. lia.
Qed.

(** The notes of a PT_NOTE segment, in memory at the segment's file offset from the
    start of the object's first mapping, with another buffer's length readable
    after it. *)
Definition seg_notes (m : mem) (start : Z) (p : phdr) (ns : list note) : Prop :=
  0 <= p_offset p /\ p_memsz p = zlen (enc_notes ns) /\ Forall note_ok ns /\
  holds m (start + p_offset p) (enc_notes ns) /\
  mapped m (start + p_offset p) (p_memsz p + 128) /\
  0 <= start /\ start + p_offset p + p_memsz p + 128 < 2 ^ 64.

Lemma notes_count ns : 12 * Z.of_nat (length ns) <= zlen (enc_notes ns).
Proof.
  induction ns as [|n ns IH]; [cbn; lia|]. cbn [enc_notes flat_map length].
  fold (enc_notes ns). rewrite zlen_app. pose proof (enc_len_ge n). lia.
Qed.

Lemma walk_none m start p ns :
  seg_notes m start p ns -> p_memsz p <= 128 ->
  Forall (fun n => aligned n /\ ~ build_id_note n) ns ->
  note_walk m start 12 (p_offset p) (u64 (p_offset p + p_memsz p)) = WEnd.
Proof.
  intros (O0 & Ms & Ok & H & M & S0 & W) L F.
  rewrite u64_small by (pose proof (zlen_nonneg (enc_notes ns)); lia).
  pose proof (notes_count ns) as NC. pose proof (zlen_nonneg (enc_notes ns)) as G.
  assert (E : exists f, (12 = length ns + S f)%nat).
  { exists (12 - length ns - 1)%nat. lia. }
  destruct E as [f E]. rewrite E, walk_over; try lia; auto.
  - cbn [note_walk]. assert (C : (p_offset p + p_memsz p <=? p_offset p + zlen (enc_notes ns)) = true) by lia.
    rewrite C. reflexivity.
  - apply Forall_forall. intros n Hn. rewrite Forall_forall in F, Ok.
    destruct (F n Hn). auto.
  - intros x Hx. apply M. unfold in_range in *. lia.
Qed.

Lemma walk_hit m start p ns1 b ns2 :
  seg_notes m start p (ns1 ++ b :: ns2) -> p_memsz p <= 128 ->
  Forall (fun n => aligned n /\ ~ build_id_note n) ns1 ->
  build_id_note b -> zlen (nt_desc b) = 20 ->
  exists buf, note_walk m start 12 (p_offset p) (u64 (p_offset p + p_memsz p)) = WHit buf /\
    slice buf 16 20 = Some (nt_desc b).
Proof.
  intros (O0 & Ms & Ok & H & M & S0 & W) L F [B1 B2] D.
  pose proof (notes_count ns1) as NC.
  unfold enc_notes in *. rewrite flat_map_app in *. cbn [flat_map] in *.
  fold (enc_notes ns1) in *. fold (enc_notes ns2) in *. rewrite !zlen_app in *.
  pose proof (zlen_nonneg (enc_notes ns1)) as G1. pose proof (zlen_nonneg (enc_notes ns2)) as G2.
  pose proof (enc_len_ge b) as G3.
  rewrite u64_small by lia.
  apply Forall_app in Ok as [Ok1 Ok2]. inversion Ok2 as [|? ? Okb Ok3]; subst.
  apply holds_app in H as [H1 H]. apply holds_app in H as [Hb _].
  assert (E : exists f, (12 = length ns1 + S f)%nat).
  { exists (12 - length ns1 - 1)%nat. lia. }
  destruct E as [f E]. rewrite E, walk_over; try lia; auto.
  2:{ apply Forall_forall. intros n Hn. rewrite Forall_forall in F, Ok1.
      destruct (F n Hn). auto. }
  2:{ intros x Hx. apply M. unfold in_range in *. lia. }
  cbn [note_walk].
  assert (C : (p_offset p + p_memsz p <=? p_offset p + zlen (enc_notes ns1)) = false) by lia.
  rewrite C. rewrite (u64_small (start + _)) by lia. rewrite Z.add_assoc.
  destruct (mread_some m (start + p_offset p + zlen (enc_notes ns1)) 128) as [buf R].
  { intros x Hx. apply M. unfold in_range in *. lia. }
  unfold mem_read. change (Z.to_nat NOTE_BUF) with 128%nat. rewrite R.
  destruct (note_fields m (start + p_offset p + zlen (enc_notes ns1)) b buf Okb) as (F1 & F2 & F3 & F4 & Lb); [lia|exact R|exact Hb|].
  assert (N4 : zlen (nt_name b) = 4) by (rewrite B1; reflexivity).
  destruct (F4 N4) as [F5 F6]. rewrite F1, F2, F3, F5, N4, B1, B2.
  cbn [Z.eqb Pos.eqb andb list_eqb]. change (3 =? NT_GNU_BUILD_ID) with true.
  exists buf. split; [reflexivity|]. rewrite <- D. exact F6.
Qed.

(** A segment that holds no build id the program would look at. *)
Definition passed_seg (m : mem) (start : Z) (p : phdr) : Prop :=
  p_type p <> 4 \/ 128 < p_memsz p \/
  exists ns, seg_notes m start p ns /\ Forall (fun n => aligned n /\ ~ build_id_note n) ns.

Lemma find_pass m start pre post :
  Forall (passed_seg m start) pre ->
  find_buildid m start (pre ++ post) = find_buildid m start post.
Proof.
  induction pre as [|p pre IH]; intros F; [reflexivity|].
  inversion F as [|? ? P F']; subst. cbn [app find_buildid].
  destruct (p_type p =? PT_NOTE) eqn:T; cbn [negb]; [|apply IH, F'].
  destruct (NOTE_BUF <? p_memsz p) eqn:B; [apply IH, F'|].
  apply Z.eqb_eq in T. unfold NOTE_BUF in B.
  destruct P as [P|[P|(ns & P1 & P2)]].
  - unfold PT_NOTE in T. congruence.
  - lia.
  - rewrite (walk_none m start p ns P1) by (auto; lia). apply IH, F'.
Qed.

Lemma hex_text_in_hex bs : bytes_ok bs -> hex_text bs = in_hex bs.
Proof.
  assert (D : forall d, 0 <= d < 16 -> hex_digit d = nth (Z.to_nat d) hex_alphabet 0).
  { intros d H. assert (C : In d (map Z.of_nat (seq 0 16))).
    { apply in_map_iff. exists (Z.to_nat d). split; [lia|]. apply in_seq. lia. }
    cbn in C.
    repeat (destruct C as [<-|C]; [reflexivity|]). destruct C. }
  induction bs as [|b bs IH]; intros H; [reflexivity|].
  inversion H as [|? ? Hb Hr]; subst. cbn [hex_text in_hex flat_map app].
  unfold byte_ok in Hb. fold (in_hex bs).
  rewrite (D (b / 16)), (D (b mod 16)), IH; auto.
  - apply Z.mod_pos_bound. lia.
  - split; [apply Z.div_pos; lia|apply Z.div_lt_upper_bound; lia].
Qed.

Lemma find_found m start pre p post ns1 b ns2 :
  Forall (passed_seg m start) pre ->
  p_type p = 4 -> p_memsz p <= 128 -> seg_notes m start p (ns1 ++ b :: ns2) ->
  Forall (fun n => aligned n /\ ~ build_id_note n) ns1 ->
  build_id_note b -> zlen (nt_desc b) = 20 ->
  find_buildid m start (pre ++ p :: post) = BFound (in_hex (nt_desc b)).
Proof.
  intros F T L S Fn B D. rewrite (find_pass _ _ _ _ F). cbn [find_buildid].
  rewrite T. change (negb (4 =? PT_NOTE)) with false. cbv iota.
  assert (C : (NOTE_BUF <? p_memsz p) = false) by (unfold NOTE_BUF; lia). rewrite C.
  destruct (walk_hit m start p ns1 b ns2 S L Fn B D) as (buf & -> & ->).
  f_equal. apply hex_text_in_hex.
  destruct S as (_ & _ & Ok & _). rewrite Forall_forall in Ok.
  destruct (Ok b) as (_ & ? & _); [apply in_or_app; right; left; reflexivity|assumption].
Qed.

Lemma in_hex_len bs : zlen (in_hex bs) = 2 * zlen bs.
Proof.
  induction bs as [|b bs IH]; [reflexivity|]. cbn [in_hex flat_map app]. fold (in_hex bs).
  rewrite !zlen_cons, IH. lia.
Qed.

Lemma find_none m start phs : Forall (passed_seg m start) phs -> find_buildid m start phs = BNone.
Proof. intros F. rewrite <- (app_nil_r phs), (find_pass _ _ _ _ F). reflexivity. Qed.

(** ** Headers *)

Lemma decode_array_length {A} (dec : list Z -> option A) sz bs n : forall off l,
  decode_array dec sz bs off n = Some l -> length l = n.
Proof.
  induction n as [|n IH]; intros off l H; cbn [decode_array] in H.
  - apply some_inj in H. subst. reflexivity.
  - destruct (slice bs off sz); [|discriminate]. destruct (dec l0); [|discriminate].
    destruct (decode_array dec sz bs (off + sz) n) eqn:E; [|discriminate].
    apply some_inj in H. subst. cbn. f_equal. eapply IH; eauto.
Qed.

(** Decoding what an encoder wrote. *)
Lemma decode_array_enc {A} (dec : list Z -> option A) (enc : A -> list Z) sz bs l :
  (forall x, In x l -> dec (enc x) = Some x) -> (forall x, In x l -> zlen (enc x) = sz) ->
  0 <= sz ->
  forall pre post, bs = pre ++ flat_map enc l ++ post ->
  decode_array dec sz bs (zlen pre) (length l) = Some l.
Proof.
  intros D Lz Sz. induction l as [|x l IH]; intros pre post E; [reflexivity|].
  cbn [decode_array length flat_map] in *.
  assert (S : slice bs (zlen pre) sz = Some (enc x)).
  { unfold slice. rewrite E. rewrite !zlen_app. rewrite (Lz x (or_introl eq_refl)).
    pose proof (zlen_nonneg pre). pose proof (zlen_nonneg (flat_map enc l)).
    pose proof (zlen_nonneg post).
    replace ((0 <=? zlen pre) && (0 <=? sz) && _) with true by lia. f_equal.
    unfold zlen at 1. rewrite Nat2Z.id.
    rewrite skipn_app, skipn_all, Nat.sub_diag. cbn [app skipn].
    assert (Hl : Z.to_nat sz = length (enc x)).
    { pose proof (Lz x (or_introl eq_refl)) as Q. unfold zlen in Q. lia. }
    rewrite Hl, <- app_assoc, firstn_app, firstn_all, Nat.sub_diag. cbn [firstn].
    apply app_nil_r. }
  rewrite S, (D x (or_introl eq_refl)).
  rewrite <- (Lz x (or_introl eq_refl)) at 2. rewrite <- zlen_app.
  rewrite (IH (fun y H => D y (or_intror H)) (fun y H => Lz y (or_intror H))
              (pre ++ enc x) post); [reflexivity|].
  rewrite E, <- !app_assoc. reflexivity.
Qed.
