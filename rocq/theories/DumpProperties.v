(** C116-C118: libcare-dump. *)
From Coq Require Import String Permutation.
From Verif Require Import Base BaseProofs StorageModel StorageProofs MakeModel MakeProofs DumpModel DumpProofs.
Open Scope list_scope.

(** ** C116: the object file taken out of a patch file *)

(** write(2) returns -1 or at most what it was given, and at most 0x7ffff000. *)
Definition write_result (n w : Z) : Prop := -1 <= w <= Z.min n 2147479552.

(** What kpatch_make packed, libcare-dump -c gives back: the output is the object file,
    followed by fewer than 16 zeros; no other file changes. *)
Theorem C116_gives_back : forall w fs bid id input ok now w1 w2 d inp out,
  zlen input <= 2147479552 - 16 -> slice input 0 4 = Some [127; 69; 76; 70] ->
  write_result 504 w1 -> write_result (align16 (zlen input)) w2 ->
  make_main (Some bid) (Some id) (Some input) ok now w1 w2 = (0, Some d) ->
  fs (d_ino w inp) = Some d -> d_ino w inp <> d_ino w out ->
  d_open w inp = true -> d_create w out = true -> d_stat w = true -> d_map w = true ->
  (forall n, 0 <= n <= 2147479552 -> d_write w n = n) ->
  exists fs', convert w fs inp out = (0, fs', []) /\
    (exists k, (k < 16)%nat /\ fs' (d_ino w out) = Some (input ++ repeat 0 k)) /\
    forall j, j <> d_ino w out -> fs' j = fs j.
Proof.
  intros w fs bid id input ok now w1 w2 d inp out L M W1 W2 E F NE H1 H2 H3 H4 HW.
  destruct (make_main_ok bid id input ok now w1 w2 d ltac:(lia) W1 W2 E) as (-> & -> & -> & Sz & Ni & Nd). clear E.
  pose proof (made_zlen input bid id now) as Ln. pose proof (align16_spec _ (zlen_nonneg input)) as A.
  pose proof (made_padding input bid id now) as (k & Lk & Ek).
  assert (Sk : skipn 504 (made input bid id now) = input ++ repeat 0 k).
  { rewrite Ek. pose proof (header_zlen (zlen input) bid id now) as Lh.
    rewrite skipn_app, skipn_all2 by (unfold zlen in *; lia).
    replace (504 - length (make_header (zlen input) bid id now))%nat with 0%nat by (unfold zlen in *; lia).
    reflexivity. }
  apply slice_inv in M as (_ & _ & B4 & _ & M). cbn [Z.to_nat skipn] in M.
  assert (L4 : 4 <= zlen input) by lia.
  assert (Es : elf_size (zlen (made input bid id now)) = align16 (zlen input)).
  { rewrite Ln, elf_size_small; lia. }
  assert (Lsk : zlen (skipn 504 (made input bid id now)) = align16 (zlen input)).
  { unfold zlen in Ln |- *. rewrite skipn_length. unfold zlen in A. lia. }
  assert (Wn : d_write w (align16 (zlen input)) = align16 (zlen input))
    by (apply HW; unfold MAX_RW in Sz; lia).
  eexists. split; [|split].
  - apply (convert_run w fs inp out (made input bid id now)); try assumption; try (rewrite Es; first [assumption|lia]).
    rewrite Sk, <- app_assoc, firstn_app.
    replace (4 - length input)%nat with 0%nat by (unfold zlen in *; lia). cbn [firstn]. rewrite app_nil_r.
    symmetry. exact M.
  - exists k. split; [exact Lk|]. unfold put. rewrite Z.eqb_refl. f_equal.
    rewrite Es, firstn_all2 by (unfold zlen in *; lia). exact Sk.
  - intros j N. unfold put. replace (j =? d_ino w out) with false by lia. reflexivity.
Qed.

(** If it succeeds on a file of at most 2 GB behind the header, the output is all that
    follows the header, and it begins as an ELF file. *)
Theorem C116_success : forall w fs inp out fs' m,
  convert w fs inp out = (0, fs', m) ->
  (forall n, write_result n (d_write w n)) ->
  exists d, fs (d_ino w inp) = Some d /\ fs' (d_ino w inp) = Some d /\ m = [] /\
    (zlen d < 2 ^ 31 + 504 -> 504 < zlen d /\ fs' (d_ino w out) = Some (skipn 504 d) /\
       exists r, skipn 504 d = [127; 69; 76; 70] ++ r).
Proof.
  intros w fs inp out fs' m E HW.
  destruct (convert_inv _ _ _ _ _ _ E) as (d & H1 & H2 & H3 & H4 & H5 & H6 & H7 & H8 & H9 & H10 & ->).
  exists d. split; [exact H2|]. split; [|split; [exact H10|]].
  { unfold put. replace (d_ino w inp =? d_ino w out) with false by lia. exact H2. }
  intros L. assert (L5 : 504 < zlen d).
  { destruct (Z_le_gt_dec (zlen d) 504) as [C|C]; [|lia].
    pose proof (elf_size_short (zlen d)). pose proof (zlen_nonneg d). lia. }
  rewrite elf_size_small in * by lia. split; [exact L5|]. split.
  - unfold put. rewrite Z.eqb_refl. f_equal. apply firstn_all2. rewrite skipn_length. unfold zlen. lia.
  - destruct (skipn 504 d) as [|a [|b [|c [|e r]]]]; cbn in H9; try discriminate H9.
    injection H9 as -> -> -> ->. exists r. reflexivity.
Qed.

(** A file that cannot be read, is not longer than the header, or has no ELF file behind
    it, is refused, and no file is touched. *)
Theorem C116_refused : forall w fs inp out,
  (forall d, d_open w inp = true -> fs (d_ino w inp) = Some d ->
     zlen d <= 504 \/ ~ exists r, skipn 504 d = [127; 69; 76; 70] ++ r) ->
  exists m, convert w fs inp out = (-1, fs, m) /\ m <> [].
Proof.
  intros w fs inp out H. unfold convert. destruct (d_open w inp).
  2:{ eexists. split; [reflexivity|]. cbn. discriminate. }
  destruct (fs (d_ino w inp)) as [d|].
  2:{ eexists. split; [reflexivity|]. cbn. discriminate. }
  specialize (H d eq_refl eq_refl).
  destruct (d_stat w); cbn [negb].
  2:{ eexists. split; [reflexivity|]. cbn. discriminate. }
  destruct (Z.leb_spec (elf_size (zlen d)) 0) as [L|L].
  { eexists. split; [reflexivity|]. cbn. discriminate. }
  destruct (d_map w); cbn [negb].
  2:{ eexists. split; [reflexivity|]. cbn. discriminate. }
  destruct H as [H|H].
  { pose proof (elf_size_short (zlen d)). pose proof (zlen_nonneg d). lia. }
  change (Z.to_nat kp_size) with 504%nat.
  destruct (list_eqb _ _) eqn:M; cbn [negb].
  2:{ eexists. split; [reflexivity|]. cbn. discriminate. }
  exfalso. apply H. apply list_eqb_eq in M.
  destruct (skipn 504 d) as [|a [|b [|c [|e r]]]]; cbn in M; try discriminate M.
  injection M as -> -> -> ->. exists r. reflexivity.
Qed.

(** Whatever happens, only the output changes. *)
Theorem C116_only_the_output : forall w fs inp out r fs' m,
  convert w fs inp out = (r, fs', m) -> forall j, j <> d_ino w out -> fs' j = fs j.
Proof. exact convert_others. Qed.

(** If not everything could be written, it fails; but the output, and what it held
    before, is gone: it has what was written. *)
Theorem C116_cut : forall w fs inp out d n,
  fs (d_ino w inp) = Some d -> 504 < zlen d < 2 ^ 31 + 504 ->
  d_open w inp = true -> d_create w out = true -> d_stat w = true -> d_map w = true ->
  (exists r, skipn 504 d = [127; 69; 76; 70] ++ r) -> d_ino w inp <> d_ino w out ->
  d_write w (zlen d - 504) = n -> n <> zlen d - 504 ->
  exists fs' m, convert w fs inp out = (-1, fs', m) /\ m <> [] /\
    fs' (d_ino w out) = Some (firstn (Z.to_nat n) (skipn 504 d)).
Proof.
  intros w fs inp out d n F L H1 H2 H3 H4 [r M] NE W N. unfold convert. rewrite H1, H2, H3, H4, F.
  cbn [negb]. change (Z.to_nat kp_size) with 504%nat. rewrite (elf_size_small (zlen d)) by lia.
  replace (zlen d - 504 <=? 0) with false by lia. cbv zeta.
  assert (X : list_eqb (firstn 4 (skipn 504 d ++ repeat 0 4)) [127; 69; 76; 70] = true)
    by (rewrite M; reflexivity). rewrite X. cbn [negb].
  replace (d_ino w inp =? d_ino w out) with false by lia. rewrite W.
  replace (n =? zlen d - 504) with false by lia.
  eexists. eexists. split; [reflexivity|]. split; [cbn; discriminate|].
  unfold put. rewrite Z.eqb_refl. reflexivity.
Qed.

(** The output must not be the input, under whichever name: the patch file is lost. *)
Theorem C116_same_file_refuted : exists w fs inp out d fs' m,
  inp <> out /\ d_ino w inp = d_ino w out /\ fs (d_ino w inp) = Some d /\ 504 < zlen d /\
  (forall n, 0 <= n <= 2147479552 -> d_write w n = n) /\
  convert w fs inp out = (-1, fs', m) /\ fs' (d_ino w inp) = Some [].
Proof.
  exists {| d_ino := fun _ => 7; d_open := fun _ => true; d_create := fun _ => true; d_stat := true;
            d_map := true; d_read := fun n => n; d_write := fun n => n |}.
  exists (fun _ => Some (repeat 0 504 ++ elfmag)), (str "a.kpatch"), (str "link").
  eexists. eexists. eexists. split; [discriminate|]. split; [reflexivity|]. split; [reflexivity|].
  split; [vm_compute; reflexivity|]. split; [reflexivity|]. split; vm_compute; reflexivity.
Qed.
(** So for every input: *)
Theorem C116_same_file_is_lost : forall w fs inp out d,
  fs (d_ino w inp) = Some d -> d_ino w inp = d_ino w out ->
  d_open w inp = true -> d_create w out = true -> d_stat w = true -> d_map w = true ->
  504 < zlen d < 2 ^ 31 + 504 -> (exists r, skipn 504 d = [127; 69; 76; 70] ++ r) ->
  exists fs' m, convert w fs inp out = (-1, fs', m) /\ fs' (d_ino w inp) = Some [].
Proof.
  intros w fs inp out d F S H1 H2 H3 H4 L [r M]. unfold convert. rewrite H1, H2, H3, H4, F.
  cbn [negb]. change (Z.to_nat kp_size) with 504%nat. rewrite (elf_size_small (zlen d)) by lia.
  replace (zlen d - 504 <=? 0) with false by lia. cbv zeta.
  assert (X : list_eqb (firstn 4 (skipn 504 d ++ repeat 0 4)) [127; 69; 76; 70] = true)
    by (rewrite M; reflexivity). rewrite X. cbn [negb].
  rewrite S, Z.eqb_refl. replace (-1 =? zlen d - 504) with false by lia.
  eexists. eexists. split; [reflexivity|]. unfold put. rewrite Z.eqb_refl. reflexivity.
Qed.

(** The file need not be a patch file: the magic string is not looked at. *)
Theorem C116_not_a_patch_refuted : exists w fs inp out d fs',
  fs (d_ino w inp) = Some d /\ firstn 7 d <> str "KPATCH1" /\ convert w fs inp out = (0, fs', []).
Proof.
  exists {| d_ino := zlen; d_open := fun _ => true; d_create := fun _ => true; d_stat := true;
            d_map := true; d_read := fun n => n; d_write := fun n => n |}.
  exists (fun _ => Some (repeat 0 504 ++ elfmag)), (str "in"), (str "out").
  eexists. eexists. split; [reflexivity|]. split; [discriminate|]. vm_compute. reflexivity.
Qed.

(** The size is kept in an int.  Between 2 and 4 GB the file is refused as invalid; with
    more, only the remainder by 4 GB is written, and that counts as success. *)
Theorem C116_two_gigabytes : forall w fs inp out d,
  fs (d_ino w inp) = Some d -> 2 ^ 31 + 504 <= zlen d < 2 ^ 32 + 504 ->
  exists m, convert w fs inp out = (-1, fs, m).
Proof.
  intros w fs inp out d F L. unfold convert. rewrite F. pose proof (elf_size_2g (zlen d) L).
  destruct (d_open w inp); [|eexists; reflexivity].
  destruct (d_stat w); cbn [negb]; [|eexists; reflexivity].
  replace (elf_size (zlen d) <=? 0) with true by lia. eexists. reflexivity.
Qed.
Theorem C116_four_gigabytes_refuted : exists w fs inp out d fs',
  fs (d_ino w inp) = Some d /\ (forall n, 0 <= n <= 2147479552 -> d_write w n = n) /\
  convert w fs inp out = (0, fs', []) /\ fs' (d_ino w out) = Some elfmag /\ skipn 504 d <> elfmag.
Proof.
  assert (H : exists d r, skipn 504 d = elfmag ++ r /\ zlen d = 4294967804 /\ zlen r = 4294967296).
  { exists (repeat 0 504 ++ elfmag ++ repeat 0 (Z.to_nat 4294967296)), (repeat 0 (Z.to_nat 4294967296)).
    assert (Lr : zlen (repeat 0 (Z.to_nat 4294967296)) = 4294967296)
      by (unfold zlen; rewrite repeat_length, Z2Nat.id by lia; reflexivity).
    revert Lr. generalize (repeat 0 (Z.to_nat 4294967296)). intros r Lr. split; [reflexivity|].
    split; [|exact Lr]. rewrite !zlen_app, Lr. reflexivity. }
  destruct H as (d & r & Sk & Ld & Lr).
  set (w := {| d_ino := zlen; d_open := fun _ => true; d_create := fun _ => true; d_stat := true;
               d_map := true; d_read := fun n => n; d_write := fun n => n |}).
  set (fs := (fun _ => Some d) : files).
  assert (Es : elf_size (zlen d) = 4) by (rewrite Ld; vm_compute; reflexivity).
  exists w, fs, (str "in"), (str "out"), d.
  eexists. split; [reflexivity|]. split; [reflexivity|]. split; [|split].
  - apply (convert_run w fs (str "in") (str "out") d); try reflexivity.
    + vm_compute. discriminate.
    + rewrite Es. lia.
    + rewrite Sk. reflexivity.
  - unfold put. rewrite Z.eqb_refl, Es, Sk. reflexivity.
  - rewrite Sk. intros C. apply (f_equal zlen) in C. rewrite zlen_app, Lr in C. cbn in C. lia.
Qed.

(** ** C117: what -H shows *)

Definition no_nul (s : list Z) : Prop := Forall (fun c => c <> 0) s.
(** A line of the output: a label in 25 columns, a blank, the value. *)
Definition shown (l v : list Z) : list Z := l ++ repeat 32 (25 - length l) ++ [32] ++ v ++ [10].

(** Of a file made by kpatch_make it shows the name of the file, the magic string, the
    patch id and the build id it was made with. *)
Theorem C117_shows : forall w fs bid id input ok now w1 w2 d inp,
  zlen input < 2 ^ 31 - 16 -> no_nul bid -> zlen bid <= 40 -> no_nul id -> zlen id <= 7 ->
  write_result 504 w1 -> write_result (align16 (zlen input)) w2 ->
  make_main (Some bid) (Some id) (Some input) ok now w1 w2 = (0, Some d) ->
  fs (d_ino w inp) = Some d -> d_open w inp = true -> d_stat w = true -> d_read w 504 = 504 ->
  dump_header w fs inp =
    (0, Some (shown (str "Patch Name:") inp ++ shown (str "Magic:") (str "KPATCH1")
              ++ shown (str "Patch id:") id ++ shown (str "buildid:") bid)).
Proof.
  intros w fs bid id input ok now w1 w2 d inp L Fb Lb Fi Li W1 W2 E F H1 H2 H3.
  destruct (make_main_ok bid id input ok now w1 w2 d ltac:(lia) W1 W2 E) as (-> & -> & -> & Sz & Ni & Nd).
  clear E. pose proof (made_zlen input bid id now) as Ln.
  pose proof (align16_spec _ (zlen_nonneg input)) as A.
  assert (Lp : 0 < zlen input) by (destruct input; [congruence|unfold zlen; cbn [length]; lia]).
  assert (M : field (firstn (Z.to_nat 504) (made input bid id now)) 0 = Some (str "KPATCH1")).
  { destruct (header_magic (zlen input) bid id now) as [r Er].
    apply (field_made [] _ (r ++ make_body input)); try reflexivity; try lia.
    - unfold made. rewrite Er, <- !app_assoc. reflexivity.
    - cbn. repeat (apply Forall_cons; [discriminate|]). apply Forall_nil. }
  assert (I : field (firstn (Z.to_nat 504) (made input bid id now)) 8 = Some id).
  { destruct (header_id (zlen input) bid id now) as (a & r & Er & La).
    destruct (strncpy_short id 7 Fi Li) as [k Ek]. rewrite Ek in Er.
    destruct k as [|k].
    - cbn [repeat] in Er. rewrite app_nil_r in Er.
      apply (field_made a _ (r ++ make_body input)); try assumption; try lia.
      unfold made. rewrite Er, <- !app_assoc. reflexivity.
    - cbn [repeat] in Er.
      apply (field_made a _ (repeat 0 k ++ [0] ++ r ++ make_body input)); try assumption; try lia.
      unfold made. rewrite Er, <- !app_assoc. cbn [app]. rewrite <- ?app_assoc. reflexivity. }
  assert (B : field (firstn (Z.to_nat 504) (made input bid id now)) 88 = Some bid).
  { destruct (header_bid (zlen input) bid id now) as (a & r & Er & La).
    destruct (strncpy_short bid 40 Fb Lb) as [k Ek]. rewrite Ek in Er.
    destruct k as [|k].
    - cbn [repeat] in Er. rewrite app_nil_r in Er.
      apply (field_made a _ (r ++ make_body input)); try assumption; try lia.
      unfold made. rewrite Er, <- !app_assoc. reflexivity.
    - cbn [repeat] in Er.
      apply (field_made a _ (repeat 0 k ++ [0] ++ r ++ make_body input)); try assumption; try lia.
      unfold made. rewrite Er, <- !app_assoc. cbn [app]. rewrite <- ?app_assoc. reflexivity. }
  unfold dump_header. rewrite H1, F, H2. cbn [negb]. rewrite Ln, elf_size_small by lia.
  replace (504 + align16 (zlen input) - 504 <=? 0) with false by lia.
  unfold kp_size. rewrite H3. cbv zeta. change (504 <=? 0) with false. cbv iota. rewrite M, I, B.
  unfold shown, label, nl. rewrite <- !app_assoc. reflexivity.
Qed.

(** A file not longer than a header is refused. *)
Theorem C117_short_refused : forall w fs inp d,
  fs (d_ino w inp) = Some d -> zlen d <= 504 -> fst (dump_header w fs inp) = -1.
Proof.
  intros w fs inp d F L. unfold dump_header. rewrite F. destruct (d_open w inp); [|reflexivity].
  destruct (d_stat w); [|reflexivity]. cbn [negb].
  pose proof (elf_size_short (zlen d)). pose proof (zlen_nonneg d).
  replace (elf_size (zlen d) <=? 0) with true by lia. reflexivity.
Qed.

(** Status 0 is given only if the file could be opened, is longer than a header, and
    something was read from it. *)
Theorem C117_success : forall w fs inp, fst (dump_header w fs inp) = 0 ->
  exists d, d_open w inp = true /\ fs (d_ino w inp) = Some d /\ d_stat w = true /\ 504 < zlen d /\ 0 < d_read w 504.
Proof.
  intros w fs inp E. unfold dump_header in E. destruct (d_open w inp) eqn:O; [|discriminate E].
  destruct (fs (d_ino w inp)) as [d|] eqn:F; [|discriminate E]. exists d.
  destruct (d_stat w) eqn:St; [cbn [negb] in E|discriminate E].
  destruct (elf_size (zlen d) <=? 0) eqn:Z1; [discriminate E|].
  unfold kp_size in E. destruct (d_read w 504 <=? 0) eqn:Z2; [discriminate E|].
  repeat split; try reflexivity; [|lia].
  destruct (Z.le_gt_cases (zlen d) 504) as [L|L]; [|exact L]. pose proof (zlen_nonneg d). pose proof (elf_size_short (zlen d)). lia.
Qed.

(** Two ids of more than seven characters may look the same, since kpatch_make cut them. *)
Theorem C117_long_ids_refuted : exists bid id1 id2 input now w fs1 fs2 d1 d2 inp,
  id1 <> id2 /\ make_main (Some bid) (Some id1) (Some input) true now 504 16 = (0, Some d1) /\
  make_main (Some bid) (Some id2) (Some input) true now 504 16 = (0, Some d2) /\
  fs1 (d_ino w inp) = Some d1 /\ fs2 (d_ino w inp) = Some d2 /\
  dump_header w fs1 inp = dump_header w fs2 inp /\ fst (dump_header w fs1 inp) = 0.
Proof.
  exists (repeat 97 40), (str "CVE-2021-1"), (str "CVE-2021-2"), (repeat 1 16), 0.
  exists {| d_ino := zlen; d_open := fun _ => true; d_create := fun _ => true; d_stat := true;
            d_map := true; d_read := fun n => n; d_write := fun n => n |}.
  eexists (fun _ => Some _), (fun _ => Some _). eexists. eexists. exists (str "in").
  split; [discriminate|]. split; [reflexivity|]. split; [reflexivity|].
  split; [reflexivity|]. split; [reflexivity|]. split; vm_compute; reflexivity.
Qed.

(** A file that is not a patch file is shown all the same; *)
Theorem C117_not_a_patch_refuted : exists w fs inp d o,
  fs (d_ino w inp) = Some d /\ firstn 7 d <> str "KPATCH1" /\ dump_header w fs inp = (0, Some o).
Proof.
  exists {| d_ino := zlen; d_open := fun _ => true; d_create := fun _ => true; d_stat := true;
            d_map := true; d_read := fun n => n; d_write := fun n => n |}.
  exists (fun _ => Some (repeat 0 505)), (str "in").
  eexists. eexists. split; [reflexivity|]. split; [discriminate|]. vm_compute. reflexivity.
Qed.
(** and where a field is not terminated, what follows it is shown as part of it, even
    what is behind the header in memory: if no byte of the header from the build id on is
    NUL, the output is not determined by the file. *)
Theorem C117_unterminated_refuted : exists w fs inp d,
  fs (d_ino w inp) = Some d /\ firstn 7 d = str "KPATCH1" /\ dump_header w fs inp = (0, None).
Proof.
  exists {| d_ino := zlen; d_open := fun _ => true; d_create := fun _ => true; d_stat := true;
            d_map := true; d_read := fun n => n; d_write := fun n => n |}.
  exists (fun _ => Some (str "KPATCH1" ++ repeat 0 81 ++ repeat 65 417)), (str "in").
  eexists. split; [reflexivity|]. split; [reflexivity|]. vm_compute. reflexivity.
Qed.
(** Exactly then: *)
Theorem C117_determined : forall w fs inp d,
  fs (d_ino w inp) = Some d -> d_open w inp = true -> d_stat w = true -> d_read w 504 = 504 ->
  504 < zlen d < 2 ^ 31 + 504 ->
  (snd (dump_header w fs inp) = None <-> Forall (fun c => c <> 0) (skipn 88 (firstn 504 d))).
Proof.
  intros w fs inp d F H1 H2 H3 L. unfold dump_header. rewrite F, H1, H2. cbn [negb].
  rewrite elf_size_small by lia. replace (zlen d - 504 <=? 0) with false by lia.
  unfold kp_size. rewrite H3. change (504 <=? 0) with false. cbv iota zeta.
  change (Z.to_nat 504) with 504%nat. unfold field. change (Z.to_nat 0) with 0%nat.
  change (Z.to_nat 8) with 8%nat. change (Z.to_nat 88) with 88%nat.
  set (kp := firstn 504 d).
  assert (P : forall n, (n <= 88)%nat -> until_nul (skipn 88 kp) <> None -> until_nul (skipn n kp) <> None).
  { intros n Ln. replace 88%nat with (n + (88 - n))%nat by lia.
    generalize (88 - n)%nat. intros k. clear Ln. clearbody kp. revert n kp. clear.
    induction n as [|n IH]; intros l; [|destruct l; [intros N; exact N|apply IH]].
    cbn [plus]. change (skipn 0 l) with l. revert l. induction k as [|k IH]; intros l; [intros N; exact N|].
    destruct l as [|c l]; [intros N; exact N|]. cbn [skipn until_nul]. intros N. specialize (IH l N).
    destruct (c =? 0); [discriminate|]. destruct (until_nul l); [discriminate|contradiction]. }
  split.
  - intros E. destruct (until_nul (skipn 88 kp)) as [b|] eqn:B.
    + exfalso. pose proof (P 0%nat ltac:(lia) ltac:(congruence)) as P0.
      pose proof (P 8%nat ltac:(lia) ltac:(congruence)) as P8.
      destruct (until_nul (skipn 0 kp)); [|congruence]. destruct (until_nul (skipn 8 kp)); [|congruence].
      discriminate E.
    + clear - B. revert B. generalize (skipn 88 kp). intros l. induction l as [|c l IH]; intros B.
      * apply Forall_nil.
      * cbn [until_nul] in B. destruct (Z.eqb_spec c 0); [discriminate|].
        destruct (until_nul l); [discriminate|]. apply Forall_cons; auto.
  - intros A. rewrite (until_nul_none _ A).
    destruct (until_nul (skipn 0 kp)); [|reflexivity]. destruct (until_nul (skipn 8 kp)); reflexivity.
Qed.

(** ** C118: the options *)

Definition opt_c : list Z := str "-c".  Definition opt_H : list Z := str "-H".
Definition opt_i : list Z := str "-i".  Definition opt_o : list Z := str "-o".

(** The options may come in any order, and the names may be any words. *)
Theorem C118_convert : forall i o bs,
  Permutation bs [[opt_c]; [opt_i; i]; [opt_o; o]] -> dump_args (concat bs) = DConv i o.
Proof.
  intros i o bs P. pose proof (Permutation_length P) as L.
  destruct bs as [|a r]; [discriminate L|]. clear L.
  assert (I : In a [[opt_c]; [opt_i; i]; [opt_o; o]]) by (apply (Permutation_in _ P); left; reflexivity).
  destruct I as [<-|[<-|[<-|[]]]].
  - apply Permutation_cons_inv, Permutation_sym, Permutation_length_2_inv in P.
    destruct P as [->| ->]; reflexivity.
  - assert (Q : Permutation ([opt_i; i] :: r) ([opt_i; i] :: [[opt_c]; [opt_o; o]]))
      by (eapply Permutation_trans; [exact P|apply perm_swap]).
    apply Permutation_cons_inv, Permutation_sym, Permutation_length_2_inv in Q.
    destruct Q as [->| ->]; reflexivity.
  - assert (Q : Permutation ([opt_o; o] :: r) ([opt_o; o] :: [[opt_c]; [opt_i; i]])).
    { eapply Permutation_trans; [exact P|]. apply Permutation_sym.
      apply (Permutation_cons_append [[opt_c]; [opt_i; i]] [opt_o; o]). }
    apply Permutation_cons_inv, Permutation_sym, Permutation_length_2_inv in Q.
    destruct Q as [->| ->]; reflexivity.
Qed.
Theorem C118_show : forall i bs,
  Permutation bs [[opt_H]; [opt_i; i]] -> dump_args (concat bs) = DHead i.
Proof.
  intros i bs P. apply Permutation_sym in P. apply Permutation_length_2_inv in P.
  repeat destruct P as [P|P]; subst bs; reflexivity.
Qed.

(** With -H nothing is converted, whatever other options are given. *)
Lemma dloop_head es s : do_head s = true -> dloop es s = None \/
  exists s', dloop es s = Some s' /\ do_head s' = true.
Proof.
  revert s. induction es as [|[c|c a|] es IH]; intros s H; cbn [dloop].
  - right. exists s. auto.
  - apply IH. destruct (c =? ch_H); cbn; auto.
  - apply IH. destruct (c =? ch_in); cbn; auto.
  - left. reflexivity.
Qed.
Lemma dloop_has_head es s : In (DFlag ch_H) es -> dloop es s = None \/
  exists s', dloop es s = Some s' /\ do_head s' = true.
Proof.
  revert s. induction es as [|[c|c a|] es IH]; intros s H; cbn [dloop].
  - destruct H.
  - destruct H as [H|H].
    + injection H as ->. rewrite Z.eqb_refl. apply dloop_head. reflexivity.
    + apply IH, H.
  - destruct H as [H|H]; [discriminate H|]. apply IH, H.
  - left. reflexivity.
Qed.
(** Options and their arguments as given before -H. *)
Definition block (b : list (list Z)) : Prop :=
  b = [opt_c] \/ b = [opt_H] \/ (exists x, b = [opt_i; x]) \/ (exists x, b = [opt_o; x]).
Lemma dgetopt_block b r : block b -> exists e, dgetopt (b ++ r) = e :: dgetopt r.
Proof. intros [->|[->|[[x ->]|[x ->]]]]; eexists; reflexivity. Qed.
Theorem C118_show_changes_nothing : forall w fs bs r, Forall block bs ->
  snd (dump_main w fs (concat bs ++ opt_H :: r)) = fs.
Proof.
  intros w fs bs r F. assert (I : In (DFlag ch_H) (dgetopt (concat bs ++ opt_H :: r))).
  { induction F as [|b bs B F IH]; [left; reflexivity|]. cbn [concat]. rewrite <- app_assoc.
    destruct (dgetopt_block b (concat bs ++ opt_H :: r) B) as [e ->]. right. exact IH. }
  unfold dump_main, dump_args. destruct (dloop_has_head _ dopt0 I) as [->|(s & -> & H)]; [reflexivity|].
  destruct (do_in s); [|reflexivity]. rewrite H. reflexivity.
Qed.

(** At most the file named with -o changes, and only if -c is among the arguments, in some
    word that begins with it. *)
Lemma dloop_conv es s s' : dloop es s = Some s' -> do_conv s' = true ->
  do_conv s = true \/ exists c, In (DFlag c) es /\ c <> ch_H.
Proof.
  revert s. induction es as [|[c|c a|] es IH]; intros s E H; cbn [dloop] in E.
  - injection E as <-. left. exact H.
  - destruct (Z.eqb_spec c ch_H) as [->|N].
    + destruct (IH _ E H) as [C|(c & I & N)]; [left; exact C|]. right. exists c. split; [right; exact I|exact N].
    + right. exists c. split; [left; reflexivity|exact N].
  - destruct (IH _ E H) as [C|(c' & I & N)].
    + left. destruct (c =? ch_in); exact C.
    + right. exists c'. split; [right; exact I|exact N].
  - discriminate E.
Qed.
Lemma dloop_out es s s' o : dloop es s = Some s' -> do_out s' = Some o ->
  do_out s = Some o \/ exists c, In (DArg c o) es /\ c <> ch_in.
Proof.
  revert s. induction es as [|[c|c a|] es IH]; intros s E H; cbn [dloop] in E.
  - injection E as <-. left. exact H.
  - destruct (IH _ E H) as [C|(c' & I & N)].
    + left. destruct (c =? ch_H); exact C.
    + right. exists c'. split; [right; exact I|exact N].
  - destruct (Z.eqb_spec c ch_in) as [->|N].
    + destruct (IH _ E H) as [C|(c & I & N)]; [left; exact C|]. right. exists c. split; [right; exact I|exact N].
    + destruct (IH _ E H) as [C|(c' & I & N')].
      * cbn [do_out] in C. injection C as ->. right. exists c. split; [left; reflexivity|exact N].
      * right. exists c'. split; [right; exact I|exact N'].
  - discriminate E.
Qed.
Lemma dgetopt_events_n n args : (length args <= n)%nat -> forall e, In e (dgetopt args) ->
  match e with
  | DFlag c => exists t, In (45 :: c :: t) args /\ (c = ch_H \/ c = ch_c)
  | DArg c a => (exists p q, args = p ++ [45; c] :: a :: q) \/ In (45 :: c :: a) args
  | DBad => True
  end /\ match e with DArg c _ => c = ch_in \/ c = ch_o | _ => True end.
Proof.
  revert args. induction n as [|n IH]; intros args L e I.
  { destruct args; [destruct I|cbn in L; lia]. }
  destruct args as [|a r]; [destruct I|]. cbn [length] in L.
  assert (Lift : forall r0, (exists p, a :: r = p ++ r0) -> (length r0 <= n)%nat -> In e (dgetopt r0) ->
    match e with
    | DFlag c => exists t, In (45 :: c :: t) (a :: r) /\ (c = ch_H \/ c = ch_c)
    | DArg c a0 => (exists p q, a :: r = p ++ [45; c] :: a0 :: q) \/ In (45 :: c :: a0) (a :: r)
    | DBad => True
    end /\ match e with DArg c _ => c = ch_in \/ c = ch_o | _ => True end).
  { intros r0 [p Ep] Lr I0. destruct (IH r0 Lr e I0) as [H1 H2]. split; [|exact H2].
    destruct e as [c|c x|]; [| |exact Logic.I].
    - destruct H1 as (t & It & Hc). exists t. split; [|exact Hc]. rewrite Ep. apply in_or_app. right. exact It.
    - destruct H1 as [(p1 & q & E)|It].
      + left. exists (p ++ p1), q. rewrite Ep, E, app_assoc. reflexivity.
      + right. rewrite Ep. apply in_or_app. right. exact It. }
  assert (Skip : In e (dgetopt r) -> match e with
    | DFlag c => exists t, In (45 :: c :: t) (a :: r) /\ (c = ch_H \/ c = ch_c)
    | DArg c a0 => (exists p q, a :: r = p ++ [45; c] :: a0 :: q) \/ In (45 :: c :: a0) (a :: r)
    | DBad => True
    end /\ match e with DArg c _ => c = ch_in \/ c = ch_o | _ => True end).
  { intros I0. apply (Lift r); [exists [a]; reflexivity|lia|exact I0]. }
  cbn [dgetopt] in I. destruct a as [|d a]; [exact (Skip I)|].
  destruct (Z.eq_dec d 45) as [->|Nd].
  2:{ apply Skip. destruct d as [|p|p]; try exact I. destruct p as [[[[[[]|[]|]|[[]|[]|]|]|[[[]|[]|]|[[]|[]|]|]|]|[[[[]|[]|]|[[]|[]|]|]|[[[]|[]|]|[[]|[]|]|]|]|]|[[[[[]|[]|]|[[]|[]|]|]|[[[]|[]|]|[[]|[]|]|]|]|[[[[]|[]|]|[[]|[]|]|]|[[[]|[]|]|[[]|[]|]|]|]|]|]; try exact I; congruence. }
  destruct a as [|c t]; [exact (Skip I)|].
  destruct (list_eqb (45 :: c :: t) [45; 45]); [destruct I|].
  unfold scan_opt in I. destruct (Z.eqb_spec c ch_H) as [Hc|Hc]; cbn [orb] in I.
  { destruct I as [<-|I]; [|exact (Skip I)]. split; [|exact Logic.I]. exists t. split; [left; reflexivity|left; exact Hc]. }
  destruct (Z.eqb_spec c ch_c) as [Hd|Hd].
  { destruct I as [<-|I]; [|exact (Skip I)]. split; [|exact Logic.I]. exists t. split; [left; reflexivity|right; exact Hd]. }
  destruct ((c =? ch_in) || (c =? ch_o)) eqn:Ho.
  - assert (Co : c = ch_in \/ c = ch_o) by lia. destruct t as [|x t].
    + destruct r as [|b r]; [destruct I as [<-|[]]; split; exact Logic.I|].
      destruct I as [<-|I].
      * split; [|exact Co]. left. exists [], r. reflexivity.
      * apply (Lift r); [exists [[45; c]; b]; reflexivity|cbn [length] in L; lia|exact I].
    + destruct I as [<-|I]; [|exact (Skip I)]. split; [|exact Co]. right. left. reflexivity.
  - destruct I as [<-|I]; [|exact (Skip I)]. split; exact Logic.I.
Qed.
Theorem C118_changes : forall w fs args j, snd (dump_main w fs args) j <> fs j ->
  exists o t, j = d_ino w o /\ In (opt_c ++ t) args /\
    ((exists p q, args = p ++ opt_o :: o :: q) \/ In (opt_o ++ o) args).
Proof.
  intros w fs args j H. unfold dump_main in H. destruct (dump_args args) as [| |i|i o] eqn:E;
    try (exfalso; apply H; reflexivity).
  exists o. unfold dump_args in E. destruct (dloop (dgetopt args) dopt0) as [s|] eqn:D; [|discriminate E].
  destruct (do_in s) as [i'|] eqn:Di; [|discriminate E]. destruct (do_head s); [discriminate E|].
  destruct (do_out s) as [o'|] eqn:Do; [|discriminate E]. destruct (do_conv s) eqn:Dc; [|discriminate E].
  injection E as -> ->.
  destruct (dloop_conv _ _ _ D Dc) as [C|(c & I & N)]; [discriminate C|].
  destruct (dgetopt_events_n _ args (le_n _) _ I) as [(t & It & Hc) _].
  destruct Hc as [->| ->]; [contradiction N; reflexivity|].
  destruct (dloop_out _ _ _ _ D Do) as [C|(c & I' & N')]; [discriminate C|].
  destruct (dgetopt_events_n _ args (le_n _) _ I') as [Ho Hc].
  destruct Hc as [->| ->]; [contradiction N'; reflexivity|].
  exists t. split; [|split; [exact It|exact Ho]].
  destruct (convert w fs i o) as [[r fs'] m] eqn:C. cbn [snd] in H.
  destruct (Z.eq_dec j (d_ino w o)) as [->|Nj]; [reflexivity|].
  exfalso. apply H. apply (convert_others _ _ _ _ _ _ _ C). exact Nj.
Qed.

(** Without an input, or with an option that is not known before it is complete, there is
    the usage message and the exit status of a failure. *)
Theorem C118_unknown_option : forall w fs bs c t r, Forall block bs ->
  ~ In c [72; 99; 105; 111] -> (c <> 45 \/ t <> []) ->
  dump_main w fs (concat bs ++ (45 :: c :: t) :: r) = (-1, fs).
Proof.
  intros w fs bs c t r F N D.
  assert (B : exists es1 es2, dgetopt (concat bs ++ (45 :: c :: t) :: r) = es1 ++ DBad :: es2).
  { induction F as [|b bs B F IH].
    - exists [], (dgetopt r). cbn [concat app dgetopt].
      assert (X : list_eqb (45 :: c :: t) [45; 45] = false).
      { destruct (list_eqb (45 :: c :: t) [45; 45]) eqn:X; [|reflexivity]. apply list_eqb_eq in X.
        injection X as -> ->. destruct D as [D|D]; contradiction D; reflexivity. }
      rewrite X. unfold scan_opt, ch_H, ch_c, ch_in, ch_o. cbn [In] in N.
      destruct (Z.eqb_spec c 72); [exfalso; apply N; auto|]. destruct (Z.eqb_spec c 99); [exfalso; apply N; auto|].
      destruct (Z.eqb_spec c 105); [exfalso; apply N; auto|]. destruct (Z.eqb_spec c 111); [exfalso; apply N; auto|].
      reflexivity.
    - cbn [concat]. rewrite <- app_assoc. destruct IH as (e1 & e2 & E).
      destruct (dgetopt_block b (concat bs ++ (45 :: c :: t) :: r) B) as [e ->].
      exists (e :: e1), e2. rewrite E. reflexivity. }
  destruct B as (e1 & e2 & B). unfold dump_main, dump_args. rewrite B.
  assert (X : forall s, dloop (e1 ++ DBad :: e2) s = None).
  { clear. induction e1 as [|[c|c a|] e1 IH]; intros s; cbn [app dloop]; auto. }
  rewrite X. reflexivity.
Qed.

(** -c and -H take what follows them in the same word as their argument: joined options
    are lost. *)
Theorem C118_joined_refuted : exists args, args = [str "-ci"; str "in"; opt_o; str "out"] /\
  dump_args args = DUsage.
Proof. eexists. split; reflexivity. Qed.
Theorem C118_joined_show_refuted : exists args, args = [str "-cH"; opt_i; str "in"; opt_o; str "out"] /\
  dump_args args = DConv (str "in") (str "out").
Proof. eexists. split; reflexivity. Qed.
(** With neither, it fails without a word. *)
Theorem C118_silent_refuted : exists args, dump_args args = DNothing /\
  forall w fs, dump_main w fs args = (-1, fs).
Proof. exists [opt_i; str "in"; opt_o; str "out"]. split; reflexivity. Qed.

(** What a sequence of options means: with -H the header of the last input named is shown;
    with -c and without -H the last input is converted to the last output; without an
    input, or without -H and without an output, the usage is printed.  The exit status is
    that of what was done. *)
Definition last_given (opt x : list Z) (bs : list (list (list Z))) : Prop :=
  exists p q, bs = p ++ [opt; x] :: q /\ forall y, ~ In [opt; y] q.
Definition upd (s : dopts) (b : list (list Z)) : dopts :=
  match b with
  | [o] => if list_eqb o opt_H then {| do_head := true; do_conv := do_conv s; do_in := do_in s; do_out := do_out s |}
           else {| do_head := do_head s; do_conv := true; do_in := do_in s; do_out := do_out s |}
  | [o; x] => if list_eqb o opt_i then {| do_head := do_head s; do_conv := do_conv s; do_in := Some x; do_out := do_out s |}
              else {| do_head := do_head s; do_conv := do_conv s; do_in := do_in s; do_out := Some x |}
  | _ => s
  end.
Lemma dloop_blocks bs s : Forall block bs -> dloop (dgetopt (concat bs)) s = Some (fold_left upd bs s).
Proof.
  intro F. revert s. induction F as [|b bs B F IH]; intro s; [reflexivity|]. cbn [concat fold_left].
  destruct B as [->|[->|[[x ->]|[x ->]]]]; rewrite <- IH; reflexivity.
Qed.
Lemma fold_head bs s : Forall block bs ->
  do_head (fold_left upd bs s) = true <-> do_head s = true \/ In [opt_H] bs.
Proof.
  intro F. revert s. induction F as [|b bs B F IH]; intro s; cbn [fold_left In]; [tauto|]. rewrite IH.
  destruct B as [->|[->|[[x ->]|[x ->]]]]; cbn; intuition (discriminate || auto).
Qed.
Lemma fold_conv bs s : Forall block bs ->
  do_conv (fold_left upd bs s) = true <-> do_conv s = true \/ In [opt_c] bs.
Proof.
  intro F. revert s. induction F as [|b bs B F IH]; intro s; cbn [fold_left In]; [tauto|]. rewrite IH.
  destruct B as [->|[->|[[x ->]|[x ->]]]]; cbn; intuition (discriminate || auto).
Qed.
Lemma fold_in_none bs s : Forall block bs -> (forall y, ~ In [opt_i; y] bs) -> do_in (fold_left upd bs s) = do_in s.
Proof.
  intro F. revert s. induction F as [|b bs B F IH]; intros s N; cbn [fold_left]; [reflexivity|].
  rewrite IH by (intros y I; apply (N y); now right).
  destruct B as [->|[->|[[x ->]|[x ->]]]]; try reflexivity. exfalso. apply (N x). now left.
Qed.
Lemma fold_out_none bs s : Forall block bs -> (forall y, ~ In [opt_o; y] bs) -> do_out (fold_left upd bs s) = do_out s.
Proof.
  intro F. revert s. induction F as [|b bs B F IH]; intros s N; cbn [fold_left]; [reflexivity|].
  rewrite IH by (intros y I; apply (N y); now right).
  destruct B as [->|[->|[[x ->]|[x ->]]]]; try reflexivity. exfalso. apply (N x). now left.
Qed.
Lemma fold_in_last bs s i : Forall block bs -> last_given opt_i i bs -> do_in (fold_left upd bs s) = Some i.
Proof.
  intros F (p & q & -> & N). rewrite fold_left_app. cbn [fold_left].
  apply Forall_app in F as (_ & F). inversion F; subst. now rewrite fold_in_none.
Qed.
Lemma fold_out_last bs s i : Forall block bs -> last_given opt_o i bs -> do_out (fold_left upd bs s) = Some i.
Proof.
  intros F (p & q & -> & N). rewrite fold_left_app. cbn [fold_left].
  apply Forall_app in F as (_ & F). inversion F; subst. now rewrite fold_out_none.
Qed.
Theorem C118_meaning : forall bs, Forall block bs ->
  (forall i, last_given opt_i i bs -> In [opt_H] bs -> dump_args (concat bs) = DHead i) /\
  (forall i o, last_given opt_i i bs -> last_given opt_o o bs -> ~ In [opt_H] bs -> In [opt_c] bs ->
     dump_args (concat bs) = DConv i o) /\
  ((forall i, ~ In [opt_i; i] bs) -> dump_args (concat bs) = DUsage) /\
  ((forall o, ~ In [opt_o; o] bs) -> ~ In [opt_H] bs -> dump_args (concat bs) = DUsage).
Proof.
  intros bs F. unfold dump_args. rewrite (dloop_blocks bs dopt0 F).
  pose proof (fold_head bs dopt0 F) as H. pose proof (fold_conv bs dopt0 F) as C.
  split; [|split; [|split]].
  - intros i I J. rewrite (fold_in_last _ _ _ F I). now rewrite (proj2 H (or_intror J)).
  - intros i o I O NH J. rewrite (fold_in_last _ _ _ F I), (fold_out_last _ _ _ F O), (proj2 C (or_intror J)).
    destruct (do_head (fold_left upd bs dopt0)); [|reflexivity]. destruct (proj1 H eq_refl); [discriminate|contradiction].
  - intro N. now rewrite fold_in_none.
  - intros N NH. rewrite (fold_out_none _ _ F N). destruct (do_in (fold_left upd bs dopt0)); [|reflexivity].
    destruct (do_head (fold_left upd bs dopt0)); [|reflexivity]. destruct (proj1 H eq_refl); [discriminate|contradiction].
Qed.
Theorem C118_status : forall w fs bs i, Forall block bs -> last_given opt_i i bs ->
  (In [opt_H] bs -> fst (dump_main w fs (concat bs)) = fst (dump_header w fs i)) /\
  (forall o, last_given opt_o o bs -> ~ In [opt_H] bs -> In [opt_c] bs ->
     dump_main w fs (concat bs) = fst (convert w fs i o)).
Proof.
  intros w fs bs i F I. destruct (C118_meaning bs F) as (A & B & _). unfold dump_main. split.
  - intro J. now rewrite (A i I J).
  - intros o O NH J. rewrite (B i o I O NH J). now destruct (convert w fs i o) as [[r fs'] m].
Qed.
Example C118_meaning_case : dump_args [opt_i; str "a"; opt_c; opt_o; str "b"; opt_i; str "c"] = DConv (str "c") (str "b") /\
  last_given opt_i (str "c") [[opt_i; str "a"]; [opt_c]; [opt_o; str "b"]; [opt_i; str "c"]].
Proof. split; [reflexivity|]. exists [[opt_i; str "a"]; [opt_c]; [opt_o; str "b"]], []. split; [reflexivity|]. intros y []. Qed.

(** ** Concrete cases *)

Definition w0 : dworld :=
  {| d_ino := zlen; d_open := fun _ => true; d_create := fun _ => true; d_stat := true;
     d_map := true; d_read := fun n => n; d_write := fun n => n |}.
Definition obj0 : list Z := [127; 69; 76; 70; 2; 1; 1; 0; 5].
Definition pat0 : list Z := snd (make_file obj0 (repeat 97 40) (str "CVE-1") 77 504 16).
Definition fs0 : files := fun j => if j =? 2 then Some pat0 else if j =? 3 then Some [1; 2] else None.

(** C116_gives_back, C116_success: the hypotheses hold, the output is the object. *)
Example convert0 : make_main (Some (repeat 97 40)) (Some (str "CVE-1")) (Some obj0) true 77 504 16 = (0, Some pat0) /\
  fs0 (d_ino w0 (str "in")) = Some pat0 /\
  exists fs', convert w0 fs0 (str "in") (str "out") = (0, fs', []) /\ fs' 3 = Some (obj0 ++ repeat 0 7) /\
    fs' 2 = Some pat0.
Proof. split; [vm_compute; reflexivity|]. split; [reflexivity|]. eexists. split; [vm_compute; reflexivity|]. split; reflexivity. Qed.
(** C116_cut: a full disk. *)
Example cut0 : exists fs' m, convert {| d_ino := zlen; d_open := fun _ => true; d_create := fun _ => true;
    d_stat := true; d_map := true; d_read := fun n => n; d_write := fun n => 5 |} fs0 (str "in") (str "out") = (-1, fs', m) /\
  fs' 3 = Some [127; 69; 76; 70; 2].
Proof. eexists. eexists. split; [vm_compute; reflexivity|]. reflexivity. Qed.
(** C116_refused: a file that is too short. *)
Example refused0 : fst (fst (convert w0 (fun _ => Some (firstn 504 pat0)) (str "in") (str "out"))) = -1.
Proof. vm_compute. reflexivity. Qed.
(** C117_shows. *)
Example header0 : dump_header w0 fs0 (str "in") =
  (0, Some (str "Patch Name:               in" ++ [10] ++ str "Magic:                    KPATCH1" ++ [10]
            ++ str "Patch id:                 CVE-1" ++ [10]
            ++ str "buildid:                  aaaaaaaaaaaaaaaaaaaaaaaaaaaaaaaaaaaaaaaa" ++ [10])).
Proof. vm_compute. reflexivity. Qed.
(** C118: options before, between and after operands. *)
Example options0 : dump_args [str "x"; str "-oout"; opt_c; str "y"; opt_i; str "-"] = DConv (str "-") (str "out").
Proof. reflexivity. Qed.
Example options1 : dump_main w0 fs0 [str "-x"; opt_c] = (-1, fs0).
Proof. reflexivity. Qed.

Print Assumptions C116_gives_back.
Print Assumptions C116_success.
Print Assumptions C116_refused.
Print Assumptions C116_only_the_output.
Print Assumptions C116_cut.
Print Assumptions C116_same_file_refuted.
Print Assumptions C116_same_file_is_lost.
Print Assumptions C116_not_a_patch_refuted.
Print Assumptions C116_two_gigabytes.
Print Assumptions C116_four_gigabytes_refuted.
Print Assumptions C117_shows.
Print Assumptions C117_short_refused.
Print Assumptions C117_success.
Print Assumptions C117_long_ids_refuted.
Print Assumptions C117_not_a_patch_refuted.
Print Assumptions C117_unterminated_refuted.
Print Assumptions C117_determined.
Print Assumptions C118_convert.
Print Assumptions C118_show.
Print Assumptions C118_show_changes_nothing.
Print Assumptions C118_changes.
Print Assumptions C118_unknown_option.
Print Assumptions C118_joined_refuted.
Print Assumptions C118_joined_show_refuted.
Print Assumptions C118_silent_refuted.
Print Assumptions C118_meaning.
Print Assumptions C118_status.
