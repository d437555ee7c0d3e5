(** Proofs about reading the ELF headers of an object. *)
From Verif Require Import Base BaseProofs StorageProofs RelocModel ElfModel ElfSpec ElfJump
  ElfNote ElfDyn.

Lemma field_skip x y off n : zlen x <= off ->
  field (x ++ y) off n = field y (off - zlen x) n.
Proof.
  intros H. unfold field, slice. rewrite zlen_app. pose proof (zlen_nonneg x).
  replace ((0 <=? off) && (0 <=? n) && (off + n <=? zlen x + zlen y))
    with ((0 <=? off - zlen x) && (0 <=? n) && (off - zlen x + n <=? zlen y)) by lia.
  destruct (_ && _ && _); [|reflexivity]. do 2 f_equal. f_equal.
  rewrite skipn_app. rewrite skipn_all2 by (unfold zlen in *; lia). cbn [app].
  f_equal. unfold zlen. lia.
Qed.
Lemma field_here k x post : 0 <= x < 256 ^ Z.of_nat k ->
  field (le_bytes k x ++ post) 0 (Z.of_nat k) = Some x.
Proof. exact (field_app [] k x post). Qed.

Ltac skip1 := rewrite field_skip by (rewrite ?le_bytes_zlen; lia); rewrite ?le_bytes_zlen.

Definition of_rawehdr (h : rawehdr) : ehdr :=
  {| e_id0 := 0x7f; e_type := i_type h; e_phoff := i_phoff h; e_phentsize := i_phentsize h;
     e_phnum := i_phnum h |}.

Lemma ehdr_len h : rawehdr_ok h -> zlen (enc_ehdr h) = 64.
Proof.
  intros ((tl & E & L) & _). unfold enc_ehdr. rewrite !zlen_app, !le_bytes_zlen, E, zlen_app, L.
  reflexivity.
Qed.

Lemma decode_ehdr_app h post : rawehdr_ok h ->
  decode_ehdr (enc_ehdr h ++ post) = Some (of_rawehdr h).
Proof.
  intros ((tl & E & L) & H1 & H2 & H3 & H4). unfold decode_ehdr, enc_ehdr.
  rewrite <- !app_assoc.
  assert (L16 : zlen (i_ident h) = 16) by (rewrite E, zlen_app, L; reflexivity).
  set (bs := i_ident h ++ _).
  assert (F0 : field bs 0 1 = Some 0x7f).
  { unfold bs. rewrite E. cbn [app]. exact (field_here 1 0x7f _ ltac:(cbn; lia)). }
  assert (F1 : field bs 16 2 = Some (i_type h)).
  { unfold bs. rewrite field_skip by lia. rewrite L16. change (16 - 16) with 0.
    apply (field_here 2). cbn in *; lia. }
  assert (F2 : field bs 32 8 = Some (i_phoff h)).
  { unfold bs. rewrite field_skip by lia. rewrite L16. do 4 skip1.
    change (field (le_bytes 8 (i_phoff h) ++ le_bytes 8 (i_shoff h) ++
            le_bytes 4 (i_flags h) ++ le_bytes 2 (i_ehsize h) ++ le_bytes 2 (i_phentsize h) ++
            le_bytes 2 (i_phnum h) ++ le_bytes 2 (i_shentsize h) ++ le_bytes 2 (i_shnum h) ++
            le_bytes 2 (i_shstrndx h) ++ post) 0 8 = Some (i_phoff h)).
    apply (field_here 8). exact H2. }
  assert (F3 : field bs 54 2 = Some (i_phentsize h)).
  { unfold bs. rewrite field_skip by lia. rewrite L16. do 8 skip1.
    change (field (le_bytes 2 (i_phentsize h) ++ le_bytes 2 (i_phnum h) ++
            le_bytes 2 (i_shentsize h) ++ le_bytes 2 (i_shnum h) ++
            le_bytes 2 (i_shstrndx h) ++ post) 0 2 = Some (i_phentsize h)).
    apply (field_here 2). rewrite H3. cbn. lia. }
  assert (F4 : field bs 56 2 = Some (i_phnum h)).
  { unfold bs. rewrite field_skip by lia. rewrite L16. do 9 skip1.
    change (field (le_bytes 2 (i_phnum h) ++
            le_bytes 2 (i_shentsize h) ++ le_bytes 2 (i_shnum h) ++
            le_bytes 2 (i_shstrndx h) ++ post) 0 2 = Some (i_phnum h)).
    apply (field_here 2). cbn in *. lia. }
  clearbody bs. rewrite F0, F1, F2, F3, F4. reflexivity.
Qed.

Lemma enc_phdr_len x : zlen (enc_phdr x) = 56.
Proof. destruct x as [p [a b]]. unfold enc_phdr. rewrite !zlen_app, !le_bytes_zlen. reflexivity. Qed.

Lemma decode_enc_phdr x : phdr_ok (fst x) -> decode_phdr (enc_phdr x) = Some (fst x).
Proof.
  destruct x as [p [a b]]. cbn [fst]. intros (H1 & H2 & H3 & H4 & H5 & H6).
  unfold decode_phdr, enc_phdr. set (bs := le_bytes 4 (p_type p) ++ _).
  assert (F1 : field bs 0 4 = Some (p_type p)) by (apply (field_here 4); exact H1).
  assert (F2 : field bs 4 4 = Some (p_flags p)).
  { unfold bs. skip1. apply (field_here 4); exact H2. }
  assert (F3 : field bs 8 8 = Some (p_offset p)).
  { unfold bs. do 2 skip1. apply (field_here 8); exact H3. }
  assert (F4 : field bs 16 8 = Some (p_vaddr p)).
  { unfold bs. do 3 skip1. apply (field_here 8); exact H4. }
  assert (F5 : field bs 32 8 = Some (p_filesz p)).
  { unfold bs. do 5 skip1. apply (field_here 8); exact H5. }
  assert (F6 : field bs 40 8 = Some (p_memsz p)).
  { unfold bs. do 6 skip1. apply (field_here 8); exact H6. }
  clearbody bs. rewrite F1, F2, F3, F4, F5, F6. destruct p; reflexivity.
Qed.

Lemma decode_phdrs bs raws pre post : Forall (fun x => phdr_ok (fst x)) raws ->
  bs = pre ++ flat_map enc_phdr raws ++ post ->
  decode_array decode_phdr PHDR_SIZE bs (zlen pre) (length raws) = Some (map fst raws).
Proof.
  intros F E. apply (decode_array_map decode_phdr enc_phdr fst) with (post := post).
  - intros x Hx. apply decode_enc_phdr. rewrite Forall_forall in F. auto.
  - intros; apply enc_phdr_len.
  - unfold PHDR_SIZE. lia.
  - exact E.
Qed.

(** Headers read from the patient. *)
Lemma peek_spec m first h raws :
  rawehdr_ok h -> i_phnum h = zlen raws -> Forall (fun x => phdr_ok (fst x)) raws ->
  0 <= first + i_phoff h < 2 ^ 64 ->
  holds m first (enc_ehdr h) -> holds m (first + i_phoff h) (flat_map enc_phdr raws) ->
  peek_phdr m first xobj0
  = (OOk, {| x_start := Some first; x_ehdr := of_rawehdr h; x_phdr := PhSet (map fst raws) |}).
Proof.
  intros Ok N F R H1 H2. unfold peek_phdr. cbn [xobj0 x_start x_ehdr x_phdr ehdr0 e_id0].
  change (0 =? 127) with false. cbv iota.
  assert (R1 : mem_read m first EHDR_SIZE = Some (enc_ehdr h)).
  { unfold mem_read, EHDR_SIZE. rewrite <- (ehdr_len h Ok). unfold zlen. rewrite Nat2Z.id.
    apply holds_mread, H1. }
  rewrite R1. rewrite <- (app_nil_r (enc_ehdr h)), (decode_ehdr_app h [] Ok).
  cbn [of_rawehdr e_phnum e_phoff].
  destruct Ok as (_ & _ & _ & _ & Np).
  assert (C : (i_phnum h <=? 0) = false) by lia. rewrite C. cbn [negb andb].
  rewrite u64_small by lia.
  assert (R2 : mem_read m (first + i_phoff h) (PHDR_SIZE * i_phnum h)
               = Some (flat_map enc_phdr raws)).
  { unfold mem_read, PHDR_SIZE. rewrite N.
    rewrite <- (flat_map_len enc_phdr 56 raws) by (intros; apply enc_phdr_len).
    unfold zlen. rewrite Nat2Z.id. apply holds_mread, H2. }
  rewrite R2.
  replace (Z.to_nat (i_phnum h)) with (length raws) by (rewrite N; unfold zlen; lia).
  change 0 with (zlen (@nil Z)).
  rewrite (decode_phdrs _ raws [] [] F) by (rewrite app_nil_r; reflexivity). reflexivity.
Qed.

(** Headers taken from the beginning of the file. *)
Lemma set_ehdr_spec h raws gap rest :
  rawehdr_ok h -> i_phnum h = zlen raws -> Forall (fun x => phdr_ok (fst x)) raws ->
  i_phoff h = 64 + zlen gap -> 64 + zlen gap + 56 * zlen raws < 2 ^ 64 ->
  set_ehdr xobj0 (enc_ehdr h ++ gap ++ flat_map enc_phdr raws ++ rest)
  = (OOk, {| x_start := None; x_ehdr := of_rawehdr h; x_phdr := PhSet (map fst raws) |}).
Proof.
  intros Ok N F Po W. unfold set_ehdr.
  set (tl := gap ++ flat_map enc_phdr raws ++ rest).
  pose proof (flat_map_len enc_phdr 56 raws (fun x _ => enc_phdr_len x)) as Lr.
  assert (Lt : zlen tl = zlen gap + 56 * zlen raws + zlen rest).
  { unfold tl. rewrite !zlen_app, Lr. lia. }
  pose proof (zlen_nonneg gap). pose proof (zlen_nonneg raws). pose proof (zlen_nonneg rest).
  assert (C1 : (zlen (enc_ehdr h ++ tl) <? EHDR_SIZE) = false).
  { rewrite zlen_app, (ehdr_len h Ok). unfold EHDR_SIZE. lia. }
  rewrite C1.
  assert (C2 : slice (enc_ehdr h ++ tl) 0 4 = Some [0x7f; 69; 76; 70]).
  { unfold slice. rewrite zlen_app, (ehdr_len h Ok).
    replace (_ && _ && _) with true by lia. f_equal.
    destruct Ok as ((t & E & _) & _). unfold enc_ehdr. rewrite E. reflexivity. }
  rewrite C2, (decode_ehdr_app h tl Ok). change (negb _) with false at 1. cbv iota.
  cbn [xobj0 x_start x_ehdr x_phdr of_rawehdr e_phentsize e_phnum e_phoff].
  pose proof Ok as (_ & _ & _ & Pe & Np). rewrite Pe.
  assert (C3 : negb (56 =? PHDR_SIZE) || (i_phnum h <=? 0) = false) by (unfold PHDR_SIZE; lia).
  rewrite C3. rewrite u64_small by lia.
  assert (C4 : (zlen (enc_ehdr h ++ tl) <? i_phoff h + 56 * i_phnum h) = false).
  { rewrite zlen_app, (ehdr_len h Ok), Lt. lia. }
  rewrite C4.
  replace (i_phoff h) with (zlen (enc_ehdr h ++ gap)) by (rewrite zlen_app, (ehdr_len h Ok); lia).
  replace (Z.to_nat (i_phnum h)) with (length raws) by (rewrite N; unfold zlen; lia).
  rewrite (decode_phdrs _ raws (enc_ehdr h ++ gap) rest F).
  - unfold of_rawehdr. rewrite Pe. reflexivity.
  - unfold tl. rewrite <- app_assoc. reflexivity.
Qed.
