(** C123: a patch applied by one run of the tool is found, listed, refused and taken away by
    later runs, which know nothing but the process. *)
From Coq Require Import String.
From Verif Require Import Base BaseProofs RemoteModel JumpModel EngineModel EngineSpec EngineFinal EngineExamples AgainProofs.
From Verif Require StorageModel ProcModel ProcSpec ProcProofs ProcSelect ProcInfo ProcMaps MapsModel MapsSpec MapsProofs.
Open Scope list_scope.

(** What a later run reads at the start of a mapping *)
Definition reads (s : st) (a : Z) : option (list Z) := mread (sm s) a 1024.

(** The line of the memory map where the patch region begins: what mmap and mprotect made of
    it, at least as long as the header. *)
Definition region_line (base : Z) (l : ProcModel.mline) : Prop :=
  ProcModel.l_start l = base /\ ProcModel.l_prot l = 5 /\
  (exists x, ProcModel.l_name l = StorageModel.str "[anonymous]" ++ x /\ ProcModel.line_name l = ProcModel.l_name l) /\
  504 <= u64 (ProcModel.l_end l - ProcModel.l_start l).

Section Again.
Variables (A : arch) (jent pg : Z) (p : patch) (off : Z) (n : nat) (o : obj) (base : Z).
Hypothesis SC : scene A jent pg p off n o base.
Variables (fuel : nat) (id bid : list Z) (s s' : st) (o' : obj).
Hypothesis Hn : (n < fuel)%nat.
Hypothesis Lab : labelled (p_hdr p) id bid.
Hypothesis Tab : forall img jt, p_link p base (region_hdr A jent pg p off n) = Some (img, jt) -> table_ok img off n.
Hypothesis Free : nothing_at (sm s) base (region_size A jent pg p off n).
Hypothesis Done : object_apply_patch A jent pg o s = (Ret 1, o', s').

Lemma again_read : exists bs s2 o2, reads s' base = Some bs /\ cstr bs = Some magic /\
  hdr_str bs h_buildid = Some bid /\ hdr_str bs h_id = Some id /\
  object_unapply_patch A pg fuel false
    {| o_patch := None; o_is_patch := false; o_applied := [bs]; o_hdr := Some (firstn 504 bs); o_info := None; o_kpta := base; o_find := fun _ => 0 |}
    (quiet s') = (Ret 1, o2, s2) /\ (forall x, sm s2 x = sm s x).
Proof.
  destruct (unpatch_roundtrip A jent pg p off n o base SC fuel id bid s o' s' Hn Lab Tab Free Done) as (s'' & E & M).
  unfold unpatch_object, recognise_patch, mem_read, pop in E. cbn [quiet so] in E.
  destruct (mread (sm (quiet s')) base 1024) as [bs|] eqn:R; [|discriminate E].
  change (mread (sm s') base 1024 = Some bs) in R.
  destruct (sx (quiet s') base && str_same (cstr bs) (Some magic)) eqn:C1; [|discriminate E].
  destruct (str_same (hdr_str bs h_buildid) (Some bid) && str_same (hdr_str bs h_id) (Some id)) eqn:C2; [|discriminate E].
  apply andb_prop in C1 as (_ & C1). apply andb_prop in C2 as (C2 & C3). apply str_same_eq in C1, C2, C3.
  change (Z.to_nat hdr_size) with 504%nat in E.
  destruct (object_unapply_patch A pg fuel false _ _) as [[r o2] s2] eqn:U in E.
  injection E as -> ->. exists bs, s'', o2. repeat split; try assumption.
Qed.

Section Run.
Variables (ehdr_ok : list Z -> bool) (bids : Z -> option (list Z)) (ls : list ProcModel.mline)
          (l : ProcModel.mline) (os : list ProcModel.pobj).
Hypothesis Inl : In l ls.
Hypothesis Rl : region_line base l.
Hypothesis Parse : ProcModel.parse_maps (reads s') ehdr_ok bids [] ls = ProcModel.POk os.

Lemma again_patch : exists j bs, ProcSpec.is_patch_at os j bid id base bs /\ reads s' base = Some bs /\
  hdr_str bs h_id = Some id.
Proof.
  destruct again_read as (bs & s2 & o2 & R & M & B & I & _). destruct Rl as (St & Pr & (x & Nm & Ln) & Sz).
  assert (T : ProcModel.get_object_type (reads s') l = ProcModel.TKpatch).
  { unfold ProcModel.get_object_type. rewrite St, R, Pr, Ln, Nm.
    replace (ProcModel.is_prefix (StorageModel.str "[anonymous]") (StorageModel.str "[anonymous]" ++ x)) with true by reflexivity.
    rewrite <- St at 1. unfold StorageModel.hdr_size. replace (504 <=? u64 (ProcModel.l_end l - ProcModel.l_start l)) with true by lia.
    rewrite (cstr_upto _ _ M). reflexivity. }
  destruct (parse_patch _ _ _ _ _ _ l bs Parse Inl T) as (j & q & r & N & P & H & V); [now rewrite St|].
  exists j, bs. split; [|now split]. exists q, (ProcModel.line_vma l), r. repeat split; try assumption.
  - unfold ProcModel.hdr_bid. now apply cstr_upto.
  - unfold ProcModel.hdr_id. now apply cstr_upto.
Qed.
Lemma again_fresh : ProcSpec.fresh os.
Proof. exact (ProcMaps.parse_fresh _ _ _ _ _ _ (Forall_nil _) Parse). Qed.

Variables (i : nat) (ob : ProcModel.pobj).
Hypothesis Elf : ProcSpec.is_elf_at os i bid ob.
Hypothesis Db : ProcSpec.distinct_bids os.

Lemma again_info : ProcModel.is_kernel_name (ProcModel.po_name ob) = false ->
  exists ids, In (ProcModel.po_name ob, bid, ids) (snd (ProcModel.info os)) /\ In (Some id) ids.
Proof.
  intro K. destruct again_patch as (j & bs & P & _).
  exact (ProcInfo.info_complete os i bid ob j id base bs again_fresh Db Elf K P).
Qed.
Lemma again_unpatch un sel : ProcSpec.distinct_patches os -> ProcSpec.requested sel bid ob ->
  0 <= fst (ProcModel.unpatch un id sel os) ->
  exists a, In a (snd (ProcModel.unpatch un id sel os)) /\ ProcModel.ua_obj a = i /\ ProcModel.ua_kpta a = base /\
    forall hs, (exists h, In h hs /\ hdr_str h h_id = Some id) ->
    exists o2 s2, object_unapply_patch A pg fuel false (later_obj hs a) (quiet s') = (Ret 1, o2, s2) /\
      forall x, sm s2 x = sm s x.
Proof.
  intros Dp Rq Ok. destruct again_patch as (j & bs & P & R & _). destruct again_read as (bs' & s2 & o2 & R' & _ & _ & I & U & M).
  assert (bs' = bs) by congruence. subst bs'.
  eexists. split; [exact (ProcSelect.unpatch_complete un id sel os j bid base bs i ob again_fresh Db Dp P Elf Rq Ok)|].
  split; [reflexivity|]. split; [reflexivity|]. intros hs (h & Ih & Eh). unfold later_obj. cbn [ProcModel.ua_hdr ProcModel.ua_kpta].
  destruct (unapply_hs A pg fuel (firstn 504 bs) base [bs] hs (quiet s') 1 o2 s2) as (o3 & U3); [|exact U|].
  - unfold applied_by_id. cbn [o_applied]. apply existsb_exists. exists h. split; [exact Ih|].
    assert (Q : applied_by_id {| o_patch := None; o_is_patch := false; o_applied := [bs]; o_hdr := Some (firstn 504 bs); o_info := None; o_kpta := base; o_find := fun _ => 0 |} (hdr_str (firstn 504 bs) h_id) = true).
    { unfold object_unapply_patch, object_unapply_patch_with, find_applied_info, obind, oget in U. cbn [o_info o_hdr] in U.
      destruct (applied_by_id _ _); [reflexivity|discriminate U]. }
    unfold applied_by_id in Q. cbn [o_applied existsb] in Q. rewrite orb_false_r, I in Q. rewrite Eh. exact Q.
  - exists o3, s2. split; [exact U3|exact M].
Qed.
End Run.
End Again.

(** The headers of the patches that are known of an object *)
Definition headers (os : list ProcModel.pobj) (o : ProcModel.pobj) : list (list Z) :=
  flat_map (fun j => match nth_error os j with
                     | Some q => match ProcModel.po_hdr q with Some h => [h] | None => [] end
                     | None => [] end) (ProcModel.po_applied o).

(** Listed by info, for every memory map in which the region begins a mapping. *)
Theorem C123_listed : forall A jent pg p off n o base, scene A jent pg p off n o base ->
  forall fuel id bid s s' o', (n < fuel)%nat -> labelled (p_hdr p) id bid ->
  (forall img jt, p_link p base (region_hdr A jent pg p off n) = Some (img, jt) -> table_ok img off n) ->
  nothing_at (sm s) base (region_size A jent pg p off n) ->
  object_apply_patch A jent pg o s = (Ret 1, o', s') ->
  forall ehdr_ok bids ls l os i ob, In l ls -> region_line base l ->
  ProcModel.parse_maps (reads s') ehdr_ok bids [] ls = ProcModel.POk os ->
  ProcSpec.is_elf_at os i bid ob -> ProcSpec.distinct_bids os ->
  ProcModel.is_kernel_name (ProcModel.po_name ob) = false ->
  exists ids, In (ProcModel.po_name ob, bid, ids) (snd (ProcModel.info os)) /\ In (Some id) ids.
Proof. intros. eapply again_info; eassumption. Qed.

(** Taken away by unpatch: it comes to the object and the region, and cancelling from what
    was found there restores the memory from before the patch. *)
Theorem C123_taken_away : forall A jent pg p off n o base, scene A jent pg p off n o base ->
  forall fuel id bid s s' o', (n < fuel)%nat -> labelled (p_hdr p) id bid ->
  (forall img jt, p_link p base (region_hdr A jent pg p off n) = Some (img, jt) -> table_ok img off n) ->
  nothing_at (sm s) base (region_size A jent pg p off n) ->
  object_apply_patch A jent pg o s = (Ret 1, o', s') ->
  forall ehdr_ok bids ls l os i ob un sel, In l ls -> region_line base l ->
  ProcModel.parse_maps (reads s') ehdr_ok bids [] ls = ProcModel.POk os ->
  ProcSpec.is_elf_at os i bid ob -> ProcSpec.distinct_bids os -> ProcSpec.distinct_patches os ->
  ProcSpec.requested sel bid ob -> 0 <= fst (ProcModel.unpatch un id sel os) ->
  exists a, In a (snd (ProcModel.unpatch un id sel os)) /\ ProcModel.ua_obj a = i /\ ProcModel.ua_kpta a = base /\
    forall hs, (exists h, In h hs /\ hdr_str h h_id = Some id) ->
    exists o2 s2, object_unapply_patch A pg fuel false (later_obj hs a) (quiet s') = (Ret 1, o2, s2) /\
      forall x, sm s2 x = sm s x.
Proof. intros. eapply again_unpatch; eassumption. Qed.

(** Refused when it is to be applied again: nothing is changed. *)
Theorem C123_not_twice : forall A jent pg p off n o base, scene A jent pg p off n o base ->
  forall fuel id bid s s' o', (n < fuel)%nat -> labelled (p_hdr p) id bid ->
  (forall img jt, p_link p base (region_hdr A jent pg p off n) = Some (img, jt) -> table_ok img off n) ->
  nothing_at (sm s) base (region_size A jent pg p off n) ->
  object_apply_patch A jent pg o s = (Ret 1, o', s') ->
  forall ehdr_ok bids ls l os i ob, In l ls -> region_line base l ->
  ProcModel.parse_maps (reads s') ehdr_ok bids [] ls = ProcModel.POk os ->
  ProcSpec.is_elf_at os i bid ob -> ProcSpec.distinct_bids os -> ProcSpec.distinct_patches os ->
  exists os2 k ob2, ProcModel.associate None os = Some (os2, k) /\ nth_error os2 i = Some ob2 /\
    forall o2 p2 s2, o_applied o2 = headers os2 ob2 -> o_is_patch o2 = false -> o_patch o2 = Some p2 ->
      hdr_str (p_hdr p2) h_id = Some id ->
      let '(r, _, s3) := object_apply_patch A jent pg o2 s2 in
      (r = Err \/ r = Die) /\ sm s3 = sm s2 /\ sx s3 = sx s2.
Proof.
  intros A jent pg p off n o base SC fuel id bid s s' o' Hn Lab Tab Free Done ehdr_ok bids ls l os i ob Inl Rl Parse Elf Db Dp.
  destruct (again_patch A jent pg p off n o base SC fuel id bid s s' o' Hn Lab Tab Free Done _ _ _ _ _ Inl Rl Parse) as (j & bs & P & R & I).
  pose proof (again_fresh _ _ _ _ _ Parse) as Fr.
  destruct (ProcInfo.info_winv os Fr) as (os2 & k & As & W).
  destruct (ProcSelect.owner_exists os j bid id base bs i ob P Elf) as (i' & Ow & ob' & Elf').
  assert (i' = i) by exact (Db _ _ _ _ _ Elf' Elf). subst i'.
  assert (Oi : ProcProofs.owns os i j = true) by (unfold ProcProofs.owns; rewrite Ow; apply Nat.eqb_refl).
  pose proof (ProcProofs.winv_nth os None _ os2 i W) as Wi. rewrite (proj1 Elf) in Wi. destruct Wi as (ob2 & N2 & _ & _ & Ap & _).
  exists os2, k, ob2. split; [exact As|]. split; [exact N2|]. intros o2 p2 s2 Ha Hp Ho Hid.
  assert (Ib : In bs (headers os2 ob2)).
  { unfold headers. rewrite Ap. apply in_flat_map.
    assert (Ij : In j (rev (seq 0 (length os)))).
    { rewrite <- in_rev. apply in_seq. destruct P as (q & v & r & Q & _). assert (j < length os)%nat by (apply nth_error_Some; congruence). lia. }
    pose proof (ProcInfo.ids_all os i _ j Ij Oi) as X. apply in_map_iff in X as (j2 & E2 & I2).
    destruct (ProcProofs.ids_of_owned os i _ j2 I2) as (O2 & _).
    assert (j2 = j).
    { unfold ProcProofs.owns in O2. destruct (ProcProofs.owner os j2) as [[[i2 a2] h2]|] eqn:Ow2; [|discriminate].
      apply Nat.eqb_eq in O2. subst i2. destruct (ProcSelect.owner_spec os j2 i a2 h2 Ow2) as ((b1 & id1 & P1) & (o1 & E1)).
      assert (hdr1 : b1 = ProcModel.hdr_bid h2) by (destruct P1 as (q & v & r & _ & _ & _ & _ & _ & Q & _); congruence).
      assert (b1 = bid). { destruct E1 as (Q1 & _ & Q3). destruct Elf as (Q4 & _ & Q5). rewrite Q1 in Q4. injection Q4 as ->. congruence. }
      assert (id1 = id). { pose proof (ProcInfo.patch_id_spec _ _ _ _ _ _ P1) as Y1. pose proof (ProcInfo.patch_id_spec _ _ _ _ _ _ P) as Y2. congruence. }
      subst b1 id1. apply (Dp j2 j bid id a2 base h2 bs); [|exact P]. congruence. }
    subst j2. exists j. split; [exact I2|]. destruct P as (q & v & r & Q1 & Q2 & Q3 & _).
    pose proof (ProcProofs.winv_nth os None _ os2 j W) as Wj. rewrite Q1 in Wj. destruct Wj as (q2 & N3 & _ & Same & _).
    rewrite N3, (Same Q2), Q3. now left. }
  pose proof (duplicate_refused A jent pg o2 p2 s2 Ho) as DR.
  assert (Q : applied_by_id o2 (hdr_str (p_hdr p2) h_id) = true).
  { unfold applied_by_id. rewrite Ha. apply existsb_exists. exists bs. split; [exact Ib|]. rewrite Hid, I. cbn. apply ProcProofs.list_eqb_refl. }
  specialize (DR Q). destruct (object_apply_patch A jent pg o2 s2) as [[r o3] s3]. destruct DR as ([D|[D|D]] & D2 & D3); [| |congruence]; auto.
Qed.

(** From the text of /proc/pid/maps: in what the kernel writes, with an area without a file
    at the region, which is readable, executable and not writable, the tool finds the line. *)
Theorem C123_from_text : forall as_ ts a, Forall2 MapsSpec.line_of as_ ts -> Forall MapsSpec.area_ok as_ ->
  Forall (fun t => zlen t <= 1023) ts -> In a as_ ->
  MapsSpec.a_read a = true -> MapsSpec.a_write a = false -> MapsSpec.a_exec a = true -> MapsSpec.a_path a = [] ->
  504 <= MapsSpec.a_end a - MapsSpec.a_start a ->
  exists ls l, MapsModel.read_maps (concat ts) = MapsModel.MOk ls /\ In l (map fst ls) /\ region_line (MapsSpec.a_start a) l.
Proof.
  intros as_ ts a F OK L I R W X P Sz. destruct (MapsProofs.read_maps_ok as_ ts F OK L) as (ls & E & Sy & _).
  rewrite Forall_forall in OK. pose proof (OK a I) as (A1 & A2 & _).
  assert (K : exists x, In x ls /\ MapsSpec.says a x).
  { clear - Sy I. induction Sy as [|b x bs xs H Sy IH]; [easy|]. destruct I as [->|I].
    - exists x. split; [now left|exact H].
    - destruct (IH I) as (y & J & K). exists y. split; [now right|exact K]. }
  destruct K as ([l off] & J & K). exists ls, l. split; [exact E|]. split; [now apply (in_map fst) in J|].
  unfold MapsSpec.says in K. destruct K as (K1 & K2 & _ & K3 & K4 & K5 & K6 & _ & K7). rewrite R, W, X, P in *.
  split; [exact K1|]. split; [|split].
  - assert (T : forall k, 0 <= k < 8 -> Z.testbit k 0 = true -> Z.testbit k 1 = false -> Z.testbit k 2 = true -> k = 5).
    { clear. intros k B. assert (C : k = 0 \/ k = 1 \/ k = 2 \/ k = 3 \/ k = 4 \/ k = 5 \/ k = 6 \/ k = 7) by lia.
      repeat destruct C as [->|C]; try subst k; cbn; congruence. }
    now apply T.
  - destruct K7 as [(_ & Nm)|(r & Er & Ne & _)].
    + exists []. unfold ProcModel.line_name. rewrite Nm. split; reflexivity.
    + destruct (ProcModel.l_name l); [congruence|discriminate Er].
  - rewrite K1, K2. unfold u64. rewrite Z.mod_small by lia. exact Sz.
Qed.

(** A program of one file, its first page and its code, patched: the hypotheses hold. *)
Definition ag_mem : mem := fun x =>
  if x =? 0x3ff000 then Some 127 else if x =? 0x3ff001 then Some 69 else if x =? 0x3ff002 then Some 76
  else if x =? 0x3ff003 then Some 70 else if (0x3ff000 <=? x) && (x <? 0x400000) then Some 0 else ex_mem x.
Definition ag_st : st := {| sm := ag_mem; sx := fun _ => false; so := [] |}.
Definition ag_after : st := snd (object_apply_patch x86 16 4096 ex_o ag_st).
Definition ag_line (a e prot dev inode : Z) (name : string) : ProcModel.mline :=
  {| ProcModel.l_start := a; ProcModel.l_end := e; ProcModel.l_prot := prot; ProcModel.l_dev := dev;
     ProcModel.l_inode := inode; ProcModel.l_name := StorageModel.str name |}.
Definition ag_region : ProcModel.mline := ag_line 0x500000 0x502000 5 0 0 "[anonymous]".
Definition ag_lines : list ProcModel.mline :=
  [ag_line 0x3ff000 0x400000 1 2049 7 "/bin/prog"; ag_line 0x400000 0x410000 5 2049 7 "/bin/prog"; ag_region].
Definition ag_bids (a : Z) : option (list Z) := if a =? 0x3ff000 then Some ex_bid else None.
Definition found (r : ProcModel.pres) : list ProcModel.pobj := match r with ProcModel.POk os => os | _ => [] end.
Definition ag_objs : list ProcModel.pobj := found (ProcModel.parse_maps (reads ag_after) (fun _ => true) ag_bids [] ag_lines).
Example C123_case :
  (exists o', object_apply_patch x86 16 4096 ex_o ag_st = (Ret 1, o', ag_after)) /\
  nothing_at (sm ag_st) 0x500000 (region_size x86 16 4096 ex_p 0 3) /\
  In ag_region ag_lines /\ region_line 0x500000 ag_region /\
  ProcModel.parse_maps (reads ag_after) (fun _ => true) ag_bids [] ag_lines = ProcModel.POk ag_objs /\
  (exists ob, ProcSpec.is_elf_at ag_objs 0 ex_bid ob /\ ProcModel.po_name ob = StorageModel.str "prog" /\
     ProcModel.is_kernel_name (ProcModel.po_name ob) = false) /\
  ProcSpec.distinct_bids ag_objs /\ ProcSpec.distinct_patches ag_objs /\
  ProcModel.info ag_objs = (0, [(StorageModel.str "prog", ex_bid, [Some ex_id])]) /\
  0 <= fst (ProcModel.unpatch (fun _ => 1) ex_id [] ag_objs).
Proof.
  assert (Lo : length ag_objs = 2%nat) by (vm_compute; reflexivity).
  assert (E1 : exists q, nth_error ag_objs 1 = Some q /\ ProcModel.po_elf q = false) by (eexists; split; vm_compute; reflexivity).
  assert (E0 : exists q, nth_error ag_objs 0 = Some q /\ ProcModel.po_patch q = false) by (eexists; split; vm_compute; reflexivity).
  split. { unfold ag_after. destruct (object_apply_patch x86 16 4096 ex_o ag_st) as [[r o'] s'] eqn:E. exists o'.
    assert (X : fst (fst (object_apply_patch x86 16 4096 ex_o ag_st)) = Ret 1) by (vm_compute; reflexivity).
    rewrite E in X. cbn [fst] in X. subst r. reflexivity. }
  split. { rewrite ex_size. intros x Hx. unfold in_range in Hx. cbn [sm ag_st]. unfold ag_mem.
    repeat match goal with |- context [x =? ?k] => replace (x =? k) with false by lia end.
    replace (x <? 0x400000) with false by lia. rewrite andb_false_r. apply ex_free. exact Hx. }
  split; [cbn; auto|]. split. { repeat split; try (vm_compute; congruence). exists []. split; reflexivity. }
  split; [vm_compute; reflexivity|]. split.
  { assert (E : exists q, nth_error ag_objs 0 = Some q /\ ProcModel.po_elf q = true /\ ProcModel.po_bid q = Some ex_bid /\
      ProcModel.po_name q = StorageModel.str "prog") by (eexists; split; [vm_compute; reflexivity|]; vm_compute; auto).
    destruct E as (q & Q1 & Q2 & Q3 & Q4). exists q. split; [split; [exact Q1|]; split; assumption|]. split; [exact Q4|].
    rewrite Q4. reflexivity. }
  split. { intros i i' b o o' (A1 & A2 & _) (B1 & B2 & _). destruct E1 as (q & Q1 & Q2).
    assert (Z0 : forall k o, nth_error ag_objs k = Some o -> ProcModel.po_elf o = true -> k = 0%nat).
    { intros k ok K1 K2. assert (k < 2)%nat by (rewrite <- Lo; apply nth_error_Some; congruence).
      destruct k as [|[|k]]; [reflexivity|congruence|lia]. }
    rewrite (Z0 _ _ A1 A2). symmetry. exact (Z0 _ _ B1 B2). }
  split. { intros j j' b id a a' h h' (p1 & v1 & r1 & A1 & A2 & _) (p2 & v2 & r2 & B1 & B2 & _). destruct E0 as (q & Q1 & Q2).
    assert (Z0 : forall k o, nth_error ag_objs k = Some o -> ProcModel.po_patch o = true -> k = 1%nat).
    { intros k ok K1 K2. assert (k < 2)%nat by (rewrite <- Lo; apply nth_error_Some; congruence).
      destruct k as [|[|k]]; [congruence|reflexivity|lia]. }
    rewrite (Z0 _ _ A1 A2). symmetry. exact (Z0 _ _ B1 B2). }
  split; [vm_compute; reflexivity|]. vm_compute. discriminate.
Qed.

Print Assumptions C123_listed.
Print Assumptions C123_taken_away.
Print Assumptions C123_not_twice.
Print Assumptions C123_from_text.
