(** Proofs about mapping the objects of a process. *)
From Coq Require Import Permutation Sorted.
From Verif Require Import Base BaseProofs RelocModel.
From Verif Require Import ElfModel ElfSpec ElfJump ElfDyn ElfSeg ElfHdr ElfProperties MapObjModel MapObjSpec.
From Verif Require ProcModel.

(** ** The headers *)

Lemma read_split m a k n buf bs : mread m a n = Some buf -> holds m (a + k) bs -> 0 <= k -> k + zlen bs <= Z.of_nat n ->
  exists pre post, buf = pre ++ bs ++ post /\ zlen pre = k.
Proof.
  intros R H K L. apply mread_spec in R as [Ln R].
  exists (firstn (Z.to_nat k) buf), (skipn (length bs) (skipn (Z.to_nat k) buf)).
  assert (E : firstn (length bs) (skipn (Z.to_nat k) buf) = bs).
  { apply nth_ext with (d := 0) (d' := 0).
    - rewrite firstn_length, skipn_length. unfold zlen in *. lia.
    - intros i Hi. rewrite firstn_length, skipn_length in Hi. unfold zlen in *.
      rewrite nth_firstn by lia. rewrite nth_skipn.
      assert (X : nth_error bs i = Some (nth i bs 0)) by (apply nth_error_nth'; lia).
      apply H in X. rewrite (R (a + k + Z.of_nat i)) in X by (unfold in_range; lia).
      injection X as X. rewrite <- X. f_equal. lia. }
  split.
  - transitivity (firstn (Z.to_nat k) buf ++ skipn (Z.to_nat k) buf); [symmetry; apply firstn_skipn|]. f_equal.
    transitivity (firstn (length bs) (skipn (Z.to_nat k) buf) ++ skipn (length bs) (skipn (Z.to_nat k) buf));
      [symmetry; apply firstn_skipn|]. rewrite E. reflexivity.
  - unfold zlen in *. rewrite firstn_length. lia.
Qed.

Lemma headers_read m a h raws buf : file_at m a h raws -> read_header m a = Some buf ->
  exists x0, elf_object m a = (OOk, x0) /\
    peek_phdr m a x0 = (OOk, {| x_start := Some a; x_ehdr := of_rawehdr h; x_phdr := PhSet (map fst raws) |}).
Proof.
  intros (Ok & N & F & A0 & W & H1 & H2) R. unfold elf_object. rewrite R.
  unfold read_header, mem_read in R.
  pose proof (zlen_nonneg raws) as Zr. pose proof Ok as (_ & _ & Po & Pe & Np).
  pose proof (flat_map_len enc_phdr 56 raws (fun x _ => enc_phdr_len x)) as Lr.
  assert (Lb : zlen buf = 1024) by (pose proof (mread_length _ _ _ _ R) as X; unfold zlen; rewrite X; reflexivity).
  destruct (read_split m a 0 1024 buf (enc_ehdr h) R) as (pre & post & E & Lp);
    [rewrite Z.add_0_r; exact H1|lia|rewrite (ehdr_len h Ok); lia|].
  destruct pre as [|? ?]; [|unfold zlen in Lp; cbn in Lp; lia]. cbn [app] in E.
  unfold set_ehdr. rewrite Lb. change (1024 <? EHDR_SIZE) with false. cbv iota.
  assert (C2 : slice buf 0 4 = Some [0x7f; 69; 76; 70]).
  { rewrite E. unfold slice. rewrite zlen_app, (ehdr_len h Ok). pose proof (zlen_nonneg post).
    replace (_ && _ && _) with true by lia. f_equal.
    destruct Ok as ((t & E' & _) & _). unfold enc_ehdr. rewrite E'. reflexivity. }
  rewrite C2. rewrite E, (decode_ehdr_app h post Ok). rewrite <- E. change (negb _) with false at 1. cbv iota.
  cbn [xobj0 x_start x_ehdr x_phdr of_rawehdr e_phentsize e_phnum e_phoff]. rewrite Pe.
  assert (C3 : negb (56 =? PHDR_SIZE) || (i_phnum h <=? 0) = false) by (unfold PHDR_SIZE; lia).
  rewrite C3. rewrite u64_small by lia.
  destruct (1024 <? i_phoff h + 56 * i_phnum h) eqn:C4.
  - eexists. split; [reflexivity|]. unfold peek_phdr. cbn [x_start x_ehdr x_phdr e_id0].
    change (e_id0 (of_rawehdr h) =? 127) with true. cbv iota. cbn [negb andb of_rawehdr e_phoff e_phnum]. rewrite u64_small by lia.
    assert (R2 : mem_read m (a + i_phoff h) (PHDR_SIZE * i_phnum h) = Some (flat_map enc_phdr raws)).
    { unfold mem_read, PHDR_SIZE. rewrite N, <- Lr. unfold zlen. rewrite Nat2Z.id. apply holds_mread, H2. }
    rewrite R2. replace (Z.to_nat (i_phnum h)) with (length raws) by (rewrite N; unfold zlen; lia).
    change 0 with (zlen (@nil Z)).
    rewrite (decode_phdrs _ raws [] [] F) by (rewrite app_nil_r; reflexivity).
    reflexivity.
  - destruct (read_split m a (i_phoff h) 1024 buf (flat_map enc_phdr raws) R H2) as (p1 & p2 & E2 & L2); [lia|lia|].
    replace (Z.to_nat (i_phnum h)) with (length raws) by (rewrite N; unfold zlen; lia).
    rewrite <- L2. rewrite (decode_phdrs buf raws p1 p2 F E2).
    eexists. split; [reflexivity|]. unfold peek_phdr. cbn [x_start x_ehdr x_phdr e_id0].
    change (e_id0 (of_rawehdr h) =? 127) with true. cbv iota. cbn [negb andb]. reflexivity.
Qed.

(** ** One object *)

Lemma fresh_areas vs : Forall (fun v => 0 <= ProcModel.v_prot v < 8) vs -> Forall fresh_vma (map fresh_area vs).
Proof. intros F. rewrite Forall_map. eapply Forall_impl; [|exact F]. intros v H. unfold fresh_vma. split; [reflexivity|]. split; [reflexivity|exact H]. Qed.

Lemma fresh_mem v : v_mem (fresh_area v) = area_of v.
Proof. reflexivity. Qed.

Lemma bias_back pg bias s low : 0 <= bias < 2 ^ 64 -> s = (bias + p_vaddr low / pg * pg) mod 2 ^ 64 ->
  (s - p_vaddr low / pg * pg) mod 2 ^ 64 = bias.
Proof.
  intros B ->. rewrite Zminus_mod_idemp_l. replace (bias + p_vaddr low / pg * pg - p_vaddr low / pg * pg) with bias by lia.
  apply Z.mod_small. exact B.
Qed.

(** What is known of an object once its segments are mapped *)
Record right (pg : Z) (o : ProcModel.pobj) (h : rawehdr) (raws : list (phdr * (Z * Z))) (bias : Z) (x : mobj) : Prop := {
  rt_obj : mo_obj x = o;
  rt_load : mo_load x = bias;
  rt_phdrs : phdrs_of (mo_x x) = Some (map fst raws);
  rt_shared : mo_shared x = is_shared_lib (i_type h) (map fst raws) (ProcModel.po_name o);
  rt_areas : Forall2 (placed pg bias (map fst raws)) (map fresh_area (ProcModel.po_vmas o)) (mo_areas x) }.

Lemma map_loaded qs pg m o h raws bias : qsort_ok qs -> page_ok pg ->
  ProcModel.is_kernel_name (ProcModel.po_name o) = false -> ProcModel.po_elf o = true ->
  (exists v r buf, ProcModel.po_vmas o = v :: r /\ read_header m (ProcModel.v_start v) = Some buf) ->
  loaded pg m (ProcModel.po_vmas o) h raws bias ->
  exists x, map_elf_segments qs pg m o = MapOk x /\ right pg o h raws bias x.
Proof.
  intros Q Pg K E (v & r & buf & Ev & R) [(v' & r' & low & Ev' & Fa & (Il & Tl & Bl & Lo) & St) B Rg Pr Ar].
  rewrite Ev in Ev'. injection Ev' as <- <-.
  destruct (headers_read m _ h raws buf Fa R) as (x0 & E1 & E2).
  unfold map_elf_segments. rewrite K, E, Ev. cbn [negb]. rewrite E1, E2. unfold phdrs_of. cbn [x_ehdr x_phdr of_rawehdr e_phnum].
  destruct Fa as (Ok & N & _). pose proof Ok as (_ & _ & _ & _ & Np).
  replace (i_phnum h <=? 0) with false by lia. rewrite Ev in *.
  pose proof (bias_back pg bias _ low B St) as Bb.
  destruct (parse_total qs pg (ProcModel.v_start v) (map fst raws) (map fresh_area (v :: r)) low Q Pg Rg (fresh_areas _ Pr) Il Tl Lo Bl)
    as (vs' & P).
  { rewrite Bb, Forall_map. exact Ar. }
  rewrite Bb in P. rewrite P. cbn [Z.ltb Z.compare].
  eexists. split; [reflexivity|].
  split; cbn [mo_obj mo_load mo_x mo_shared mo_areas].
  - reflexivity.
  - reflexivity.
  - unfold phdrs_of. cbn [x_ehdr x_phdr of_rawehdr e_phnum]. replace (i_phnum h <=? 0) with false by lia. reflexivity.
  - reflexivity.
  - rewrite Ev. exact (proj2 (parse_spec qs pg _ _ _ _ _ Q Pg Rg (fresh_areas _ Pr) (ex_intro _ low (conj Il Tl)) P)).
Qed.

Lemma map_skipped qs pg m o : ProcModel.is_kernel_name (ProcModel.po_name o) = true \/ ProcModel.po_elf o = false ->
  map_elf_segments qs pg m o = MapOk (unmapped o).
Proof.
  unfold map_elf_segments. destruct (ProcModel.is_kernel_name _); [reflexivity|]. intros [H|H]; [discriminate|]. rewrite H. reflexivity.
Qed.

(** Translation of addresses *)
Lemma right_translates pg o h raws bias x v : apart pg bias (map fst raws) ->
  Forall (fun v => 0 <= ProcModel.v_prot v < 8) (ProcModel.po_vmas o) -> right pg o h raws bias x -> v <> 0 ->
  mapped_address pg (ProcModel.po_vmas o) (map fst raws) bias v -> vaddr2addr (mo_areas x) v = (v + bias) mod 2 ^ 64.
Proof.
  intros Ap Pr [_ _ _ _ Ar] N (g & w & Pg & Iw & Nw & Mw & In_).
  destruct (vaddr2addr_spec pg bias (map fst raws) _ _ v (fresh_areas _ Pr) Ar N) as [H _]. apply H.
  clear H N Pr. remember (map fresh_area (ProcModel.po_vmas o)) as l. 
  assert (I : In (fresh_area w) l) by (subst l; apply in_map; exact Iw). clear Heql Iw.
  induction Ar as [|y y' l l' Hy Ar IH]; [destruct I|]. destruct I as [->|I].
  - destruct Hy as [[E _]|(_ & g' & Pg' & Mg' & E1 & E2 & _)]; [cbn in E; congruence|].
    rewrite fresh_mem in Mg'. rewrite (Ap g g' _ Pg Pg' Mw Mg') in In_.
    exists y'. split; [left; reflexivity|]. rewrite E1, E2. exact In_.
  - destruct (IH I) as (o' & Io & Bo). exists o'. split; [right; exact Io|exact Bo].
Qed.

Lemma right_unknown pg o h raws bias x v :
  Forall (fun v => 0 <= ProcModel.v_prot v < 8) (ProcModel.po_vmas o) -> right pg o h raws bias x ->
  (forall g, piece (map fst raws) g -> ~ (g_vaddr g <= v < g_vaddr g + g_memsz g)) -> vaddr2addr (mo_areas x) v = 0.
Proof.
  intros Pr [_ _ _ _ Ar] Nn. destruct (Z.eq_dec v 0) as [->|N]; [reflexivity|].
  destruct (vaddr2addr_spec pg bias (map fst raws) _ _ v (fresh_areas _ Pr) Ar N) as [H1 H2].
  apply H2. intros a Ia Ba. destruct (H1 (ex_intro _ a (conj Ia Ba))) as (_ & g & Pg & Bg). exact (Nn g Pg Bg).
Qed.

(** ** Refusal *)

Lemma map_refused qs pg m o h raws bias v : qsort_ok qs -> page_ok pg ->
  ProcModel.is_kernel_name (ProcModel.po_name o) = false -> ProcModel.po_elf o = true ->
  (exists v0 r low, ProcModel.po_vmas o = v0 :: r /\ file_at m (ProcModel.v_start v0) h raws /\
     read_header m (ProcModel.v_start v0) <> None /\ lowest_load (map fst raws) low /\
     ProcModel.v_start v0 = (bias + p_vaddr low / pg * pg) mod 2 ^ 64) ->
  0 <= bias < 2 ^ 64 -> regular (map fst raws) -> Forall (fun v => 0 <= ProcModel.v_prot v < 8) (ProcModel.po_vmas o) ->
  In v (ProcModel.po_vmas o) -> ProcModel.v_prot v <> 0 ->
  (forall g, piece (map fst raws) g -> ~ is_mapping_of pg bias g (area_of v)) ->
  map_elf_segments qs pg m o = MapErr.
Proof.
  intros Q Pg K E (v0 & r & low & Ev & Fa & R & (Il & Tl & Bl & Lo) & St) B Rg Pr Iv Nv Nm.
  destruct (read_header m (ProcModel.v_start v0)) as [buf|] eqn:Rd; [|congruence].
  destruct (headers_read m _ h raws buf Fa Rd) as (x0 & E1 & E2).
  unfold map_elf_segments. rewrite K, E, Ev. cbn [negb]. rewrite E1, E2. unfold phdrs_of. cbn [x_ehdr x_phdr of_rawehdr e_phnum].
  destruct Fa as (Ok & N & _). pose proof Ok as (_ & _ & _ & _ & Np).
  replace (i_phnum h <=? 0) with false by lia. rewrite Ev in *.
  pose proof (bias_back pg bias _ low B St) as Bb.
  destruct (parse_program_header qs pg (ProcModel.v_start v0) (map fst raws) (map fresh_area (v0 :: r))) as [[rv ld] vs'] eqn:P.
  destruct (Z.ltb_spec rv 0) as [L|L]; [reflexivity|]. exfalso.
  assert (D : rv = 0 /\ ld = Some bias).
  { unfold parse_program_header in P.
    destruct (lowest_aux (map fst raws) (2 ^ 64 - 1)) as (L1 & L2 & L3). fold (lowest_vaddr (map fst raws)) in *.
    assert (El : lowest_vaddr (map fst raws) = p_vaddr low).
    { specialize (L2 low Il Tl). destruct L3 as [L3|(q & Iq & Tq & Eq)]; [lia|]. specialize (Lo q Iq Tq). lia. }
    rewrite El in P. replace (p_vaddr low =? 2 ^ 64 - 1) with false in P by lia.
    assert (Rl : 0 <= p_vaddr low < 2 ^ 64).
    { destruct Rg as (Rb & _). rewrite Forall_forall in Rb. specialize (Rb low Il). lia. }
    destruct Pg as (k & Hk & ->).
    assert (Eb : u64 (ProcModel.v_start v0 - round_down (p_vaddr low) (2 ^ k)) = bias).
    { rewrite round_down_spec by lia. exact Bb. }
    rewrite Eb in P.
    destruct (split_relro None _) as [mh|] eqn:Sp.
    - destruct (match_vmas (2 ^ k) bias mh (map fresh_area (v0 :: r))) as [c l] eqn:M. injection P as <- <- <-.
      split; [|reflexivity].
      assert (G : forall vs c l, match_vmas (2 ^ k) bias mh vs = (c, l) -> c = 0 \/ c = -1).
      { clear. induction vs as [|a vs IH]; intros c l H; cbn [match_vmas] in H; [left; congruence|].
        destruct (a_prot (v_mem a) =? 0).
        - destruct (match_vmas _ _ _ vs) as [c' l'] eqn:M. injection H as <- _. exact (IH _ _ eq_refl).
        - destruct (find _ mh); [|right; congruence]. destruct (match_vmas _ _ _ vs) as [c' l'] eqn:M. injection H as <- _. exact (IH _ _ eq_refl). }
      destruct (G _ _ _ M); lia.
    - injection P as <- <- <-. split; reflexivity. }
  destruct D as [-> ->].
  pose proof (proj2 (parse_spec qs pg _ _ _ _ _ Q Pg Rg (fresh_areas _ Pr) (ex_intro _ low (conj Il Tl)) P)) as F.
  assert (I : In (fresh_area v) (map fresh_area (v0 :: r))) by (apply in_map; exact Iv).
  clear - F I Nv Nm. induction F as [|y y' l l' Hy F IH]; [destruct I|]. destruct I as [->|I]; [|exact (IH I)].
  destruct Hy as [[X _]|(_ & g & G & M & _)]; [cbn in X; congruence|]. exact (Nm g G M).
Qed.

Lemma objects_refused qs pg m os o : In o os -> map_elf_segments qs pg m o = MapErr -> forall l, map_objects qs pg m os <> MapOk l.
Proof.
  induction os as [|a os IH]; intros I E l; [destruct I|]. cbn [map_objects].
  destruct I as [->|I].
  - rewrite E. discriminate.
  - destruct (map_elf_segments qs pg m a); [|discriminate|discriminate].
    destruct (map_objects qs pg m os) eqn:M; [|discriminate|discriminate]. exact (fun _ => IH I E x0 eq_refl).
Qed.

(** ** All objects *)

Lemma objects_mapped qs pg m (R : ProcModel.pobj -> mobj -> Prop) os :
  (forall o, In o os -> exists x, map_elf_segments qs pg m o = MapOk x /\ R o x) ->
  exists mos, map_objects qs pg m os = MapOk mos /\ Forall2 R os mos.
Proof.
  induction os as [|o os IH]; intros H; [exists []; split; [reflexivity|constructor]|].
  destruct (H o (or_introl eq_refl)) as (x & E & Rx).
  destruct (IH (fun o' I => H o' (or_intror I))) as (mos & E2 & F).
  exists (x :: mos). cbn [map_objects]. rewrite E, E2. split; [reflexivity|constructor; assumption].
Qed.

(** ** Build ids *)

Definition bid_of_first (bid : Z -> option (list Z)) (o : ProcModel.pobj) : Prop :=
  exists v r, ProcModel.po_vmas o = v :: r /\ ProcModel.po_bid o = bid (ProcModel.v_start v).

Lemma upd_forall {A} (P : A -> Prop) l i x : Forall P l -> P x -> Forall P (ProcModel.upd l i x).
Proof.
  revert i. induction l as [|a l IH]; intros i F Px; [constructor|]. inversion_clear F.
  destruct i; cbn; constructor; auto.
Qed.

Lemma parse_bids rd ok bid ls : forall os0 os, Forall (bid_of_first bid) os0 ->
  ProcModel.parse_maps rd ok bid os0 ls = ProcModel.POk os -> Forall (bid_of_first bid) os.
Proof.
  induction ls as [|l ls IH]; intros os0 os F H; cbn [ProcModel.parse_maps] in H; [injection H as <-; exact F|].
  destruct (ProcModel.add_object_vma rd ok bid os0 l) as [os1| |] eqn:E; [|discriminate|discriminate].
  refine (IH _ _ _ H). clear IH H. unfold ProcModel.add_object_vma in E. cbv zeta in E.
  assert (NewOk : forall n e p h, bid_of_first bid {| ProcModel.po_dev := ProcModel.l_dev l; ProcModel.po_inode := s32 (ProcModel.l_inode l);
    ProcModel.po_name := n; ProcModel.po_vmas := [ProcModel.line_vma l]; ProcModel.po_elf := e; ProcModel.po_patch := p; ProcModel.po_hdr := h;
    ProcModel.po_bid := bid (ProcModel.l_start l); ProcModel.po_kpta := 0; ProcModel.po_target := false; ProcModel.po_applied := [] |}).
  { intros. exists (ProcModel.line_vma l), []. split; reflexivity. }
  assert (Old : forall i os2, match nth_error os0 i with
                              | Some o => ProcModel.POk (ProcModel.upd os0 i (ProcModel.add_vm_area o (ProcModel.line_vma l)))
                              | None => ProcModel.PErr end = ProcModel.POk os2 -> Forall (bid_of_first bid) os2).
  { intros i os2 H. destruct (nth_error os0 i) as [o|] eqn:N; [|discriminate]. injection H as <-. apply upd_forall; [exact F|].
    rewrite Forall_forall in F. destruct (F o (nth_error_In _ _ N)) as (v & r & E1 & E2).
    unfold ProcModel.add_vm_area. destruct (existsb _ _); [exists v, r; auto|].
    exists v, (r ++ [ProcModel.line_vma l]). cbn. rewrite E1, E2. split; reflexivity. }
  destruct (ProcModel.get_object_type rd l).
  - destruct (ProcModel.last_index _ os0); [exact (Old _ _ E)|]. injection E as <-. apply Forall_app. auto.
  - destruct (ProcModel.last_index _ os0); [exact (Old _ _ E)|].
    destruct (ok _); [|discriminate]. injection E as <-. apply Forall_app. auto.
  - destruct (ProcModel.name_fits _ _); [|discriminate]. injection E as <-. apply Forall_app. auto.
Qed.

Lemma loaded_build_id m a h raws buf : file_at m a h raws -> read_header m a = Some buf ->
  build_id m a = match find_buildid m a (map fst raws) with BFound t => Some t | _ => None end.
Proof.
  intros Fa R. destruct (headers_read m a h raws buf Fa R) as (x0 & E1 & E2).
  unfold build_id. rewrite E1. cbn [snd]. unfold look_for_buildid. rewrite E2. cbn [x_start].
  destruct Fa as (Ok & _). pose proof Ok as (_ & _ & _ & _ & Np).
  unfold phdrs_of. cbn [x_ehdr x_phdr of_rawehdr e_phnum]. replace (i_phnum h <=? 0) with false by lia. reflexivity.
Qed.

(** ** Symbols *)

(** Only shared libraries are searched. *)
Definition hide (o : lib) : lib := if l_shared o then o else {| l_shared := false; l_syms := RErr; l_vmas := l_vmas o |}.
Lemma resolve_hide ifunc libs key : resolve_loop ifunc (map hide libs) key = resolve_loop ifunc libs key.
Proof.
  induction libs as [|o libs IH]; [reflexivity|]. cbn [map resolve_loop].
  destruct (l_shared o) eqn:S.
  - assert (E : hide o = o) by (unfold hide; rewrite S; reflexivity). rewrite E, S, IH. reflexivity.
  - assert (E : l_shared (hide o) = false) by (unfold hide; rewrite S; reflexivity). rewrite E. exact IH.
Qed.

Lemma image_right qs pg riscv m o i : qsort_ok qs -> page_ok pg -> image_ok pg riscv m o i ->
  exists x, map_elf_segments qs pg m o = MapOk x /\ right pg o (im_h i) (im_raws i) (im_bias i) x.
Proof.
  intros Q Pg (K & E & (v & r & Ev & R) & L & _). apply map_loaded; try assumption.
  destruct (mread m (ProcModel.v_start v) 1024) as [buf|] eqn:Rd; [|congruence]. exists v, r, buf. split; [exact Ev|exact Rd].
Qed.

Lemma interp_glibc name : is_interp_exception name = true <-> glibc_file name.
Proof. exact (ElfProperties.interp_exception_spec name). Qed.

Lemma shared_iff h phs name : is_shared_lib (i_type h) phs name = true <-> shared_library h phs name.
Proof. exact (ElfProperties.C73_shared_library_test (i_type h) phs name). Qed.

(** The tables of the objects, those of programs left out *)
Definition table_of (name : list Z) (d : option image) : list rawsym * list Z :=
  match d with
  | Some i => if is_shared_lib (i_type (im_h i)) (im_phs i) name then (im_syms i, im_strs i) else ([], [])
  | None => ([], [])
  end.
Definition mapped_right (pg : Z) (od : ProcModel.pobj * option image) (x : mobj) : Prop :=
  match snd od with
  | Some i => right pg (fst od) (im_h i) (im_raws i) (im_bias i) x
  | None => x = unmapped (fst od)
  end.

Lemma lib_tables qs pg riscv m ods mos :
  Forall (fun od => match snd od with Some i => image_ok pg riscv m (fst od) i | None => True end) ods ->
  Forall2 (mapped_right pg) ods mos ->
  Forall2 (lib_table qs) (map hide (map (lib_of qs riscv m) mos)) (map (fun od => table_of (ProcModel.po_name (fst od)) (snd od)) ods).
Proof.
  intros F H. induction H as [|[o d] x ods mos H1 H IH]; [constructor|]. inversion_clear F as [|? ? D F']. cbn [map fst snd] in *.
  constructor; [|exact (IH F')]. unfold mapped_right in H1. cbn [fst snd] in *. destruct d as [i|].
  - destruct H1 as [_ Ld Ph Sh _]. cbn [table_of]. fold (im_phs i) in *. unfold hide, lib_of. cbn [l_shared l_syms l_vmas].
    rewrite Sh, Ph, Ld. destruct (is_shared_lib (i_type (im_h i)) (im_phs i) (ProcModel.po_name o)) eqn:S.
    + left. destruct D as (_ & _ & _ & _ & _ & T). apply shared_iff in S. destruct (T S) as (p & ds & sy & T').
      exists riscv, m, (im_bias i), (im_phs i), p, ds, sy. split; [exact T'|reflexivity].
    + right. split; reflexivity.
  - subst x. right. split; reflexivity.
Qed.

Lemma map_lib_nth qs riscv m mos n o : nth_error (map hide (map (lib_of qs riscv m) mos)) n = Some o ->
  exists x, nth_error mos n = Some x /\ o = hide (lib_of qs riscv m x).
Proof.
  rewrite map_map. intros H. rewrite nth_error_map in H. destruct (nth_error mos n) as [x|]; [|discriminate].
  injection H as <-. exists x. split; reflexivity.
Qed.
