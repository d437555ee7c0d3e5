(** Properties C125 and C126: the files of a process, from its memory map and its memory. *)
From Coq Require Import String.
From Verif Require Import Base BaseProofs RelocModel StorageModel.
From Verif Require Import ElfModel ElfSpec ElfJump ElfDyn ElfSeg ElfNote ElfHdr ElfProperties MapObjModel MapObjSpec MapObjProofs.
From Verif Require MapsModel ProcModel.
Open Scope list_scope.

(** Each object is a file loaded in the process, or a pseudo-file of the kernel, or data. *)
Definition described (pg : Z) (riscv : bool) (m : mem) (o : ProcModel.pobj) (d : option image) : Prop :=
  match d with
  | Some i => image_ok pg riscv m o i
  | None => ProcModel.is_kernel_name (ProcModel.po_name o) = true \/ ProcModel.po_elf o = false
  end.

(** What the tool knows of a file is true: its bias, whether it is a library, and where in the
    process each of its addresses is. *)
Definition known_right (pg : Z) (x : mobj) (d : option image) : Prop :=
  match d with
  | None => True
  | Some i =>
      mo_load x = im_bias i /\
      (mo_shared x = true <-> shared_library (im_h i) (im_phs i) (ProcModel.po_name (mo_obj x))) /\
      (forall v, v <> 0 -> mapped_address pg (ProcModel.po_vmas (mo_obj x)) (im_phs i) (im_bias i) v ->
         vaddr2addr (mo_areas x) v = (v + im_bias i) mod 2 ^ 64) /\
      (forall v, (forall g, piece (im_phs i) g -> ~ (g_vaddr g <= v < g_vaddr g + g_memsz g)) -> vaddr2addr (mo_areas x) v = 0)
  end.

Lemma all_mapped qs pg riscv m os ds : qsort_ok qs -> page_ok pg -> Forall2 (described pg riscv m) os ds ->
  exists mos, map_objects qs pg m os = MapOk mos /\ Forall2 (mapped_right pg) (combine os ds) mos /\ map mo_obj mos = os.
Proof.
  intros Q Pg Desc. induction Desc as [|o d os ds D Desc IH].
  - exists []. repeat split. constructor.
  - destruct IH as (mos & E & F & O).
    assert (X : exists x, map_elf_segments qs pg m o = MapOk x /\ mapped_right pg (o, d) x /\ mo_obj x = o).
    { destruct d as [i|].
      - destruct (image_right qs pg riscv m o i Q Pg D) as (x & E1 & R). exists x. split; [exact E1|]. split; [exact R|exact (rt_obj _ _ _ _ _ _ R)].
      - exists (unmapped o). split; [exact (map_skipped qs pg m o D)|]. split; reflexivity. }
    destruct X as (x & E1 & M & O1). exists (x :: mos). cbn [map_objects combine map]. rewrite E1, E, O1, O.
    split; [reflexivity|]. split; [constructor; assumption|reflexivity].
Qed.

Lemma all_right pg riscv m os ds mos : Forall2 (described pg riscv m) os ds -> Forall2 (mapped_right pg) (combine os ds) mos ->
  Forall2 (known_right pg) mos ds.
Proof.
  intros Desc. revert mos. induction Desc as [|o d os ds D Desc IH]; intros mos F; inversion F as [|? x ? mos' M F']; subst; [constructor|].
  constructor; [|exact (IH _ F')]. destruct d as [i|]; [|exact I]. unfold mapped_right in M. cbn [fst snd] in M.
  destruct D as (_ & _ & _ & [_ _ _ Pr _] & Ap & _). unfold known_right. pose proof M as [O Ld _ Sh _]. rewrite O.
  split; [exact Ld|]. split; [rewrite Sh; apply shared_iff|]. split; intros v.
  - exact (fun N => right_translates pg o (im_h i) (im_raws i) (im_bias i) x v Ap Pr M N).
  - exact (right_unknown pg o (im_h i) (im_raws i) (im_bias i) x v Pr M).
Qed.

Lemma described_at pg riscv m os ds n o d : Forall2 (described pg riscv m) os ds -> nth_error os n = Some o -> nth_error ds n = Some d ->
  described pg riscv m o d.
Proof.
  intros Desc. revert n. induction Desc as [|o' d' os ds D Desc IH]; intros n No Nd; destruct n; cbn in *; try discriminate.
  - injection No as ->. injection Nd as ->. exact D.
  - exact (IH n No Nd).
Qed.

Lemma described_images pg riscv m os ds : Forall2 (described pg riscv m) os ds ->
  Forall (fun od => match snd od with Some i => image_ok pg riscv m (fst od) i | None => True end) (combine os ds).
Proof. intros H. induction H as [|o d os ds D H IH]; [constructor|]. constructor; [|exact IH]. destruct d; [exact D|exact I]. Qed.

Lemma combine_at {A B} (l1 : list A) : forall (l2 : list B) k a b, nth_error l1 k = Some a -> nth_error l2 k = Some b ->
  nth_error (combine l1 l2) k = Some (a, b).
Proof. induction l1 as [|x l IH]; intros [|y l2] [|k] a b A1 B1; cbn in *; try discriminate; [congruence|exact (IH _ _ _ _ A1 B1)]. Qed.
Lemma combine_at' {A B} (l1 : list A) : forall (l2 : list B) k a b, nth_error (combine l1 l2) k = Some (a, b) ->
  nth_error l1 k = Some a /\ nth_error l2 k = Some b.
Proof. induction l1 as [|x l IH]; intros [|y l2] [|k] a b H; cbn in *; try discriminate; [injection H as -> ->; auto|exact (IH _ _ _ _ H)]. Qed.

Section Process.
Variables (qs : sorter) (pg : Z) (riscv : bool) (m : mem) (text : list Z).
Variables (ls : list (ProcModel.mline * Z)) (os : list ProcModel.pobj) (ds : list (option image)).
Hypothesis Q : qsort_ok qs.
Hypothesis Pg : page_ok pg.
(** The lines of the memory map (C110) and the objects they make up (C75) *)
Hypothesis Lines : MapsModel.read_maps text = MapsModel.MOk ls.
Hypothesis Objs : ProcModel.parse_maps (read_header m) ehdr_ok (build_id m) [] (map fst ls) = ProcModel.POk os.
Hypothesis Libc : ProcModel.libc_base (read_header m) (map fst ls) <> None.
Hypothesis Desc : Forall2 (described pg riscv m) os ds.

Lemma files_of mos pid os' n : map_objects qs pg m os = MapOk mos -> ProcModel.associate pid os = Some (os', n) ->
  map_object_files qs pg m text pid = MapOk (mos, os', n).
Proof.
  intros E A. unfold map_object_files. rewrite Lines, Objs.
  destruct (ProcModel.libc_base _ _); [|congruence]. rewrite E, A. reflexivity.
Qed.

(** Loaded files are accepted and what is recorded of them is right. *)
Theorem C125_files : exists mos,
  (forall pid os' n, ProcModel.associate pid os = Some (os', n) -> map_object_files qs pg m text pid = MapOk (mos, os', n)) /\
  map mo_obj mos = os /\ Forall2 (known_right pg) mos ds.
Proof.
  destruct (all_mapped qs pg riscv m os ds Q Pg Desc) as (mos & E & F & O). exists mos. split; [intros; apply files_of; assumption|].
  split; [exact O|]. exact (all_right pg riscv m os ds mos Desc F).
Qed.

(** The build id of a file is the one in its notes. *)
Theorem C125_build_id n o i v r pre p post ns1 b ns2 : nth_error os n = Some o -> nth_error ds n = Some (Some i) ->
  ProcModel.po_vmas o = v :: r ->
  im_phs i = pre ++ p :: post -> Forall (passed_seg m (ProcModel.v_start v)) pre ->
  p_type p = 4 -> p_memsz p <= 128 -> seg_notes m (ProcModel.v_start v) p (ns1 ++ b :: ns2) ->
  Forall (fun n => aligned n /\ ~ build_id_note n) ns1 -> build_id_note b -> zlen (nt_desc b) = 20 ->
  ProcModel.get_buildid o = Some (in_hex (nt_desc b)).
Proof.
  intros No Nd Ev Ph F T S N1 A B L.
  pose proof (described_at pg riscv m os ds n o (Some i) Desc No Nd) as D.
  destruct D as (_ & E & (v1 & r1 & Ev1 & R) & [(v2 & r2 & low & Ev2 & Fa & _) _ _ _ _] & _).
  rewrite Ev in Ev1, Ev2. injection Ev1 as <- <-. injection Ev2 as <- <-.
  destruct (mread m (ProcModel.v_start v) 1024) as [buf|] eqn:Rd; [|congruence].
  unfold ProcModel.get_buildid. rewrite E.
  pose proof (parse_bids _ _ _ _ _ _ (Forall_nil _) Objs) as Bs. rewrite Forall_forall in Bs.
  destruct (Bs o (nth_error_In _ _ No)) as (v3 & r3 & Ev3 & ->). rewrite Ev in Ev3. injection Ev3 as <- <-.
  rewrite (loaded_build_id m _ _ _ buf Fa Rd). fold (im_phs i). rewrite Ph.
  rewrite (find_found m _ pre p post ns1 b ns2 F T S N1 A B L). reflexivity.
Qed.

(** A name a patch refers to: the definition of the first library that exports it, at its
    address plus the bias of that library. *)
Theorem C125_symbol mos pid os' k ifunc sname name :
  map_object_files qs pg m text pid = MapOk (mos, os', k) ->
  ~ In 64 name -> (sname = name \/ exists version, sname = name ++ 64 :: version) -> str_ok name ->
  exists a, resolve_in qs riscv m ifunc mos sname = ROk a /\
  ((exists n o i ty v, nth_error os n = Some o /\ nth_error ds n = Some (Some i) /\
      shared_library (im_h i) (im_phs i) (ProcModel.po_name o) /\ exports (im_syms i) (im_strs i) name ty v /\
      (v <> 0 -> mapped_address pg (ProcModel.po_vmas o) (im_phs i) (im_bias i) v ->
       a = if ty =? 10 then match ifunc ((v + im_bias i) mod 2 ^ 64) with Some r => r | None => 0 end
           else (v + im_bias i) mod 2 ^ 64) /\
      forall k' o' i' ty' v', (k' < n)%nat -> nth_error os k' = Some o' -> nth_error ds k' = Some (Some i') ->
        shared_library (im_h i') (im_phs i') (ProcModel.po_name o') -> ~ exports (im_syms i') (im_strs i') name ty' v')
   \/ (a = 0 /\ forall k' o' i' ty' v', nth_error os k' = Some o' -> nth_error ds k' = Some (Some i') ->
        shared_library (im_h i') (im_phs i') (ProcModel.po_name o') -> ~ exports (im_syms i') (im_strs i') name ty' v')).
Proof.
  intros H N64 Sn Ok.
  destruct (all_mapped qs pg riscv m os ds Q Pg Desc) as (mos' & E & F & O).
  assert (mos' = mos).
  { unfold map_object_files in H. rewrite Lines, Objs in H. destruct (ProcModel.libc_base _ _); [|discriminate]. rewrite E in H.
    destruct (ProcModel.associate pid os) as [[? ?]|]; [|discriminate]. injection H as <- _ _. reflexivity. }
  subst mos'.
  pose proof (described_images pg riscv m os ds Desc) as F1.
  pose proof (lib_tables qs pg riscv m (combine os ds) mos F1 F) as LT.
  destruct (C35_first_exporter_partial qs ifunc _ _ sname name Q LT N64 Sn Ok) as (a & Ra & C).
  exists a. split.
  { unfold resolve_in. unfold resolve_undefined in *. rewrite resolve_hide in Ra. exact Ra. }
  assert (Not : forall k' o' i' ty' v', nth_error os k' = Some o' -> nth_error ds k' = Some (Some i') ->
    shared_library (im_h i') (im_phs i') (ProcModel.po_name o') -> exports (im_syms i') (im_strs i') name ty' v' ->
    exists l tab, nth_error (map hide (map (lib_of qs riscv m) mos)) k' = Some l /\
      nth_error (map (fun od => table_of (ProcModel.po_name (fst od)) (snd od)) (combine os ds)) k' = Some tab /\
      l_shared l = true /\ exports (fst tab) (snd tab) name ty' v').
  { intros k' o' i' ty' v' A B S X.
    pose proof (combine_at os ds k' o' (Some i') A B) as Cm.
    assert (Mx : exists x, nth_error mos k' = Some x /\ mapped_right pg (o', Some i') x).
    { clear - F Cm. revert k' Cm. induction F as [|y x l1 l2 Y F IH]; intros [|k'] Cm; cbn in *; try discriminate.
      - injection Cm as ->. exists x. auto.
      - exact (IH k' Cm). }
    destruct Mx as (x & Nx & Mx). unfold mapped_right in Mx. cbn [fst snd] in Mx. destruct Mx as [_ _ _ Sh _].
    apply shared_iff in S. fold (im_phs i') in Sh. rewrite S in Sh.
    exists (hide (lib_of qs riscv m x)), (im_syms i', im_strs i').
    split; [rewrite map_map, nth_error_map, Nx; reflexivity|].
    split; [rewrite nth_error_map, Cm; cbn [option_map fst snd table_of]; rewrite S; reflexivity|].
    split; [unfold hide, lib_of; cbn [l_shared]; rewrite Sh; cbn [l_shared]; rewrite ?Sh; reflexivity|exact X]. }
  destruct C as [(n & l & tab & ty & v & Nl & Nt & Sl & X & Ea & Fst)|(-> & Nn)].
  - left. rewrite nth_error_map in Nt. destruct (nth_error (combine os ds) n) as [[o d]|] eqn:Cm; [|discriminate].
    cbn [option_map fst snd] in Nt. injection Nt as <-. destruct (combine_at' os ds n o d Cm) as [No Nd].
    destruct d as [i|]; [|destruct X as (s & [] & _)]. cbn [table_of] in X.
    destruct (is_shared_lib (i_type (im_h i)) (im_phs i) (ProcModel.po_name o)) eqn:S; [|destruct X as (s & [] & _)]. cbn [fst snd] in X.
    exists n, o, i, ty, v. split; [exact No|]. split; [exact Nd|]. split; [apply shared_iff; exact S|]. split; [exact X|]. split.
    + intros Nv Mv. destruct (map_lib_nth _ _ _ _ _ _ Nl) as (x & Nx & ->).
      assert (Mx : right pg o (im_h i) (im_raws i) (im_bias i) x).
      { clear - F Cm Nx. revert n Cm Nx. induction F as [|y z l1 l2 Y F IH]; intros [|n] Cm Nx; cbn in *; try discriminate.
        - injection Cm as ->. injection Nx as ->. exact Y.
        - exact (IH n Cm Nx). }
      assert (D : image_ok pg riscv m o i).
      { rewrite Forall_forall in F1. exact (F1 _ (nth_error_In _ _ Cm)). }
      destruct D as (_ & _ & _ & [_ _ _ Pr _] & Ap & _).
      assert (Eh : l_vmas (hide (lib_of qs riscv m x)) = mo_areas x) by (unfold hide, lib_of; cbn [l_shared l_vmas]; destruct (mo_shared x); reflexivity).
      rewrite Eh, (right_translates pg o (im_h i) (im_raws i) (im_bias i) x v Ap Pr Mx Nv Mv) in Ea. exact Ea.
    + intros k' o' i' ty' v' Lk A B S' X'. destruct (Not k' o' i' ty' v' A B S' X') as (l' & tab' & Nl' & Nt' & Sl' & Y).
      exact (Fst k' l' tab' ty' v' Lk Nl' Nt' Sl' Y).
  - right. split; [reflexivity|]. intros k' o' i' ty' v' A B S' X'. destruct (Not k' o' i' ty' v' A B S' X') as (l' & tab' & Nl' & Nt' & Sl' & Y).
    exact (Nn k' l' tab' ty' v' Nl' Nt' Sl' Y).
Qed.
End Process.
Print Assumptions C125_files.
Print Assumptions C125_build_id.
Print Assumptions C125_symbol.

(** ** C126: an accessible mapping of an ELF file that is not the pages of a segment *)
(** The whole process is refused, whatever file it is. *)
Theorem C126_refused qs pg m text pid ls os o h raws bias v mos os' n : qsort_ok qs -> page_ok pg ->
  MapsModel.read_maps text = MapsModel.MOk ls ->
  ProcModel.parse_maps (read_header m) ehdr_ok (build_id m) [] (map fst ls) = ProcModel.POk os ->
  In o os -> ProcModel.is_kernel_name (ProcModel.po_name o) = false -> ProcModel.po_elf o = true ->
  (exists v0 r low, ProcModel.po_vmas o = v0 :: r /\ file_at m (ProcModel.v_start v0) h raws /\
     mread m (ProcModel.v_start v0) 1024 <> None /\ lowest_load (map fst raws) low /\
     ProcModel.v_start v0 = (bias + p_vaddr low / pg * pg) mod 2 ^ 64) ->
  0 <= bias < 2 ^ 64 -> regular (map fst raws) -> Forall (fun v => 0 <= ProcModel.v_prot v < 8) (ProcModel.po_vmas o) ->
  In v (ProcModel.po_vmas o) -> ProcModel.v_prot v <> 0 ->
  (forall g, piece (map fst raws) g -> ~ is_mapping_of pg bias g (area_of v)) ->
  map_object_files qs pg m text pid <> MapOk (mos, os', n).
Proof.
  intros Q Pg L P I K E V B Rg Pr Iv Nv Nm H. unfold map_object_files in H. rewrite L, P in H.
  destruct (ProcModel.libc_base _ _); [|discriminate].
  pose proof (map_refused qs pg m o h raws bias v Q Pg K E V B Rg Pr Iv Nv Nm) as X.
  destruct (map_objects qs pg m os) as [l| |] eqn:M; [|discriminate|discriminate].
  exact (objects_refused qs pg m os o I X l M).
Qed.
Print Assumptions C126_refused.

(** ** A process with one file: libc.so.6 at 0x10000 with a symbol table, a dynamic section and
    a build id *)
Definition lc_h : rawehdr :=
  {| i_ident := [0x7f; 69; 76; 70; 2; 1; 1; 0; 0; 0; 0; 0; 0; 0; 0; 0]; i_type := 3; i_machine := 62; i_version := 1; i_entry := 0;
     i_phoff := 64; i_shoff := 0; i_flags := 0; i_ehsize := 64; i_phentsize := 56; i_phnum := 3; i_shentsize := 64; i_shnum := 0;
     i_shstrndx := 0 |}.
Definition lc_ns : list note := [bid id20].
Definition lc_note : phdr := note_ph 0x200 (zlen (enc_notes lc_ns)).
Definition lc_raws : list (phdr * (Z * Z)) := [(ex_load, (0, 4096)); (ex_dynph, (0x400, 8)); (lc_note, (0x200, 4))].
Definition lc_mem : mem :=
  mset (mset (mset (mset (mset zmem 0x10400 (flat_map enc_dyn ex_dyn)) 0x10100 (flat_map enc_sym ex_raws ++ ex_strs))
    0x10200 (enc_notes lc_ns)) 0x10040 (flat_map enc_phdr lc_raws)) 0x10000 (enc_ehdr lc_h).
Definition lc_text : list Z := str "00010000-00011000 r-xp 00000000 08:01 77     /lib/libc.so.6" ++ [10].
Definition lc_image : image := {| im_h := lc_h; im_raws := lc_raws; im_bias := 0x10000; im_syms := ex_raws; im_strs := ex_strs |}.
Definition lines_of (text : list Z) : list (ProcModel.mline * Z) := match MapsModel.read_maps text with MapsModel.MOk l => l | _ => [] end.
Definition objs_of (m : mem) (ls : list (ProcModel.mline * Z)) : list ProcModel.pobj :=
  match ProcModel.parse_maps (read_header m) ehdr_ok (build_id m) [] (map fst ls) with ProcModel.POk l => l | _ => [] end.
Definition lc_ls : list (ProcModel.mline * Z) := lines_of lc_text.
Definition lc_os : list ProcModel.pobj := objs_of lc_mem lc_ls.

Lemma lc_reads : MapsModel.read_maps lc_text = MapsModel.MOk lc_ls /\
  ProcModel.parse_maps (read_header lc_mem) ehdr_ok (build_id lc_mem) [] (map fst lc_ls) = ProcModel.POk lc_os /\
  ProcModel.libc_base (read_header lc_mem) (map fst lc_ls) = Some 0x10000.
Proof. vm_compute. auto. Qed.

Lemma holds_check (m : mem) a bs :
  forallb (fun x => match m (a + Z.of_nat (fst x)) with Some b => b =? snd x | None => false end) (combine (seq 0 (length bs)) bs) = true ->
  holds m a bs.
Proof.
  intros H i b E. rewrite forallb_forall in H.
  assert (N : nth_error (seq 0 (length bs)) i = Some i).
  { assert (L : (i < length bs)%nat) by (apply nth_error_Some; congruence).
    rewrite (nth_error_nth' _ 0%nat) by (rewrite seq_length; exact L). rewrite seq_nth by exact L. reflexivity. }
  specialize (H (i, b) (nth_error_In _ _ (combine_at _ _ i i b N E))). cbn [fst snd] in H.
  destruct (m (a + Z.of_nat i)); [|discriminate]. apply Z.eqb_eq in H. congruence.
Qed.

Lemma lc_table : dyn_table false lc_mem 0x10000 (im_phs lc_image) ex_raws ex_strs ex_dynph ex_dyn 0x10100.
Proof.
  destruct C35_table_example as [_ T2 T3 T4 T5 _ T7 T8 T9 T10 T11 _ T13 T14 T15]. constructor; try assumption.
  - exists [ex_load], [lc_note]. split; [reflexivity|]. constructor; [discriminate|constructor].
  - apply holds_check. vm_compute. reflexivity.
  - apply holds_check. vm_compute. reflexivity.
Qed.

Lemma lc_pieces g : piece (im_phs lc_image) g -> g = seg_of ex_load.
Proof.
  intros [(l & I & T & -> & _)|[(r & I & T & _)|(l & r & _ & _ & I & T & _)]];
    cbn in I; repeat (destruct I as [<-|I]; [try discriminate T; try reflexivity|]); try destruct I.
Qed.

Lemma lc_file : file_at lc_mem 0x10000 lc_h lc_raws.
Proof.
  split; [|split; [reflexivity|split; [|split; [vm_compute; discriminate|split; [vm_compute; reflexivity|split]]]]].
  -- split; [eexists; split; reflexivity|]. cbn. lia.
  -- repeat (apply Forall_cons; [unfold phdr_ok; vm_compute; intuition discriminate|]). apply Forall_nil.
  -- apply holds_check. vm_compute. reflexivity.
  -- apply holds_check. vm_compute. reflexivity.
Qed.
Lemma lc_low : lowest_load (map fst lc_raws) ex_load.
Proof.
  split; [left; reflexivity|]. split; [reflexivity|]. split; [vm_compute; reflexivity|].
  intros q I T. cbn in I. repeat (destruct I as [<-|I]; [try discriminate T; cbn; lia|]). destruct I.
Qed.
Lemma lc_regular : regular (map fst lc_raws).
Proof.
  split; [|split; [|split]].
  * repeat (apply Forall_cons; [vm_compute; intuition discriminate|]). apply Forall_nil.
  * repeat first [apply FOP_nil | apply FOP_cons];
      repeat first [apply Forall_nil | apply Forall_cons; [cbn; intros; lia|]].
  * repeat first [apply FOP_nil | apply FOP_cons];
      repeat first [apply Forall_nil | apply Forall_cons; [cbn; intros; lia|]].
  * intros r I T. cbn in I. repeat (destruct I as [<-|I]; [discriminate T|]). destruct I.
Qed.

Example C125_described : Forall2 (described 4096 false lc_mem) lc_os [Some lc_image].
Proof.
  assert (E : exists o, lc_os = [o] /\ ProcModel.po_vmas o = [{| ProcModel.v_start := 0x10000; ProcModel.v_end := 0x11000; ProcModel.v_prot := 5 |}] /\
    ProcModel.po_name o = str "libc.so.6" /\ ProcModel.po_elf o = true).
  { eexists. split; [vm_compute; reflexivity|]. vm_compute. auto. }
  destruct E as (o & -> & V & N & El). constructor; [|constructor]. unfold described, image_ok. rewrite V, N.
  split; [reflexivity|]. split; [exact El|]. split.
  { eexists. eexists. split; [reflexivity|]. vm_compute. discriminate. }
  split; [|split].
  - constructor.
    + eexists. eexists. exists ex_load. split; [reflexivity|]. split; [|split].
      * exact lc_file.
      * exact lc_low.
      * reflexivity.
    + cbn. lia.
    + exact lc_regular.
    + constructor; [cbn; lia|constructor].
    + constructor; [|constructor]. right. exists (seg_of ex_load). split; [|split; [reflexivity|split; reflexivity]].
      left. exists ex_load. split; [left; reflexivity|]. split; [reflexivity|]. split; [reflexivity|].
      intros r I T. cbn in I. repeat (destruct I as [<-|I]; [discriminate T|]). destruct I.
  - intros g g' a G G' _ _. rewrite (lc_pieces g G), (lc_pieces g' G'). reflexivity.
  - intros _. exists ex_dynph, ex_dyn, 0x10100. exact lc_table.
Qed.

(** The file is found with bias 0x10000, is a library, has its build id; "c@@V1" is at 0x10200. *)
Example C125_example :
  match map_object_files isort 4096 lc_mem lc_text None with
  | MapOk (mos, os', n) =>
      map (fun x => (mo_load x, mo_shared x)) mos = [(0x10000, true)] /\ n = 0 /\
      map ProcModel.get_buildid os' = [Some (in_hex id20)] /\
      resolve_in isort false lc_mem (fun _ => None) mos [99; 64; 64; 86; 49] = ROk 0x10200
  | _ => False
  end.
Proof. vm_compute. auto. Qed.

(** The hypotheses of C126_refused: the library's only mapping was made writable. *)
Definition lc_text_w : list Z := str "00010000-00011000 rwxp 00000000 08:01 77     /lib/libc.so.6" ++ [10].
Example C126_refused_case : exists o v, let ls := lines_of lc_text_w in let os := objs_of lc_mem ls in
  MapsModel.read_maps lc_text_w = MapsModel.MOk ls /\
  ProcModel.parse_maps (read_header lc_mem) ehdr_ok (build_id lc_mem) [] (map fst ls) = ProcModel.POk os /\
  In o os /\ ProcModel.is_kernel_name (ProcModel.po_name o) = false /\ ProcModel.po_elf o = true /\ ProcModel.po_vmas o = [v] /\
  file_at lc_mem (ProcModel.v_start v) lc_h lc_raws /\ mread lc_mem (ProcModel.v_start v) 1024 <> None /\
  lowest_load (map fst lc_raws) ex_load /\ ProcModel.v_start v = (0x10000 + p_vaddr ex_load / 4096 * 4096) mod 2 ^ 64 /\
  regular (map fst lc_raws) /\ ProcModel.v_prot v = 7 /\
  (forall g, piece (map fst lc_raws) g -> ~ is_mapping_of 4096 0x10000 g (area_of v)).
Proof.
  pose (v := {| ProcModel.v_start := 0x10000; ProcModel.v_end := 0x11000; ProcModel.v_prot := 7 |}).
  assert (E : exists o, objs_of lc_mem (lines_of lc_text_w) = [o] /\ ProcModel.po_vmas o = [v] /\
    ProcModel.po_name o = str "libc.so.6" /\ ProcModel.po_elf o = true).
  { eexists. split; [vm_compute; reflexivity|]. vm_compute. auto. }
  destruct E as (o & E & V & N & El).
  exists o, v. cbv zeta. split; [vm_compute; reflexivity|]. split; [vm_compute; reflexivity|]. rewrite E.
  split; [left; reflexivity|]. rewrite N. split; [reflexivity|]. split; [exact El|]. split; [exact V|].
  split; [exact lc_file|]. split; [vm_compute; discriminate|]. split; [exact lc_low|]. split; [reflexivity|].
  split; [exact lc_regular|]. split; [reflexivity|].
  intros g G (_ & _ & S). fold (im_phs lc_image) in G. rewrite (lc_pieces g G) in S. vm_compute in S. discriminate S.
Qed.

(** The same process with a second file, of no concern to any patch, one mapping of which was
    made writable: nothing can be patched any more. *)
Definition two_mem : mem := fun x => if x <? 0x20000 then lc_mem x else lc_mem (x - 0x10000).
Definition jit_line (rights : string) : list Z := str ("00020000-00021000 " ++ rights ++ " 00000000 08:01 78     /lib/libjit.so") ++ [10].
Theorem C126_unrelated_mapping_refuted : exists m text line line',
  (* as loaded the process is accepted ... *)
  (exists r, map_object_files isort 4096 m (text ++ line) None = MapOk r) /\
  (* ... but not after mprotect of a file no patch is for; without that file it is again *)
  line = jit_line "r-xp" /\ line' = jit_line "rwxp" /\
  map_object_files isort 4096 m (text ++ line') None = MapErr /\
  (exists r, map_object_files isort 4096 m text None = MapOk r).
Proof.
  exists two_mem, lc_text, (jit_line "r-xp"), (jit_line "rwxp").
  split; [eexists; vm_compute; reflexivity|]. split; [reflexivity|]. split; [reflexivity|].
  split; [vm_compute; reflexivity|]. eexists. vm_compute. reflexivity.
Qed.
Print Assumptions C126_unrelated_mapping_refuted.
