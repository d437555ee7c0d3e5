(** C01-C07, C53-C59: patching and unpatching an object of a running process.

    [scene A jent pg p off n o base] (EngineSpec.v): object [o], not yet patched, is
    about to get the well-formed patch [p] whose table has [n] entries at offset
    [off] of the image; the tool will map the region at [base].  The state [s]
    carries the oracle that decides which remote operations fail, transfer less
    than asked, or see the tool die; every theorem holds for every oracle unless
    the state is [quiet _]. *)
From Verif Require Import Base BaseProofs RemoteModel JumpSpec JumpModel EngineModel EngineSpec LayoutProofs
  EngineProofs ApplyProofs PeekProofs UnpatchProofs RollbackProofs EngineFinal EngineExamples.

(** ** C01.  A patch that was applied (with whatever incidents on the way) can be
    cancelled by a later run of the tool, although in the meantime ([s2]) the
    patient has changed any memory except the three areas the tool relies on.  The
    region goes away, the entries of the replaced functions get their original
    bytes back, nothing else changes. *)
Theorem C01_unpatch_restores : forall A jent pg p off n o base,
  scene A jent pg p off n o base -> forall fuel id bid s o' s' s2,
  (n < fuel)%nat -> labelled (p_hdr p) id bid ->
  (forall img jt, p_link p base (region_hdr A jent pg p off n) = Some (img, jt) -> table_ok img off n) ->
  object_apply_patch A jent pg o s = (Ret 1, o', s') ->
  sx s2 base = true -> mapped (sm s2) base (region_size A jent pg p off n) ->
  (forall x, bookkeeping A (region_hdr A jent pg p off n) base n x -> sm s2 x = sm s' x) ->
  (forall x, replaced_byte A jent pg p off n base x -> sm s2 x <> None) ->
  exists s'', unpatch_object A pg fuel bid id base (quiet s2) = (Ret 1, s'') /\
    (forall x, in_range x base (region_size A jent pg p off n) -> sm s'' x = None) /\
    (forall x, replaced_byte A jent pg p off n base x -> sm s'' x = sm s x) /\
    (forall x, ~ in_range x base (region_size A jent pg p off n) ->
       ~ replaced_byte A jent pg p off n base x -> sm s'' x = sm s2 x).
Proof. exact unpatch_restores. Qed.
Print Assumptions C01_unpatch_restores.

(** Nothing happens in between: all of memory is as before, mapped or not. *)
Theorem C01_roundtrip : forall A jent pg p off n o base,
  scene A jent pg p off n o base -> forall fuel id bid s o' s',
  (n < fuel)%nat -> labelled (p_hdr p) id bid ->
  (forall img jt, p_link p base (region_hdr A jent pg p off n) = Some (img, jt) -> table_ok img off n) ->
  nothing_at (sm s) base (region_size A jent pg p off n) ->
  object_apply_patch A jent pg o s = (Ret 1, o', s') ->
  exists s'', unpatch_object A pg fuel bid id base (quiet s') = (Ret 1, s'') /\
    forall x, sm s'' x = sm s x.
Proof. exact unpatch_roundtrip. Qed.
Print Assumptions C01_roundtrip.

Definition ex_applied : outcome Z * obj * st := object_apply_patch x86 16 4096 ex_o (ex_st []).
Definition ex_after : st := snd ex_applied.

Example C01_hyps : scene x86 16 4096 ex_p 0 3 ex_o 0x500000 /\ labelled (p_hdr ex_p) ex_id ex_bid /\
  nothing_at (sm (ex_st [])) 0x500000 (region_size x86 16 4096 ex_p 0 3) /\
  ex_result (object_apply_patch x86 16 4096 ex_o (ex_st [])) = Ret 1 /\
  sm ex_after 0x400000 = Some 233 /\ sm (ex_st []) 0x400000 = Some 94 /\
  fst (unpatch_object x86 4096 10 ex_bid ex_id 0x500000 ex_after) = Ret 1 /\
  sm (snd (unpatch_object x86 4096 10 ex_bid ex_id 0x500000 ex_after)) 0x400000 = Some 94.
Proof.
  split; [exact ex_scene|]. split; [exact ex_labelled|]. split; [rewrite ex_size; exact ex_free|].
  computed.
Qed.

(** C01 does not hold of every run that reports success: when the read of the
    table fails, the cached reader hands out zeros, the table looks empty, nothing
    is restored, the region is unmapped and success is reported.  The patched
    functions now jump to unmapped memory. *)
Theorem C01_unpatch_success_refuted : exists s : st,
  scene x86 16 4096 ex_p 0 3 ex_o 0x500000 /\
  let r := object_apply_patch x86 16 4096 ex_o s in
  let u := unpatch_object x86 4096 10 ex_bid ex_id 0x500000
             {| sm := sm (snd r); sx := sx (snd r); so := [AOk; AShort 0] |} in
  fst (fst r) = Ret 1 /\ fst u = Ret 1 /\
  sm s 0x400000 = Some 94 /\
  x86_exec 0x400000 (map (fun k => match sm (snd u) (0x400000 + k) with Some b => b | None => 0 end) [0; 1; 2; 3; 4])
    = Some 0x501000 /\ sm (snd u) 0x501000 = None.
Proof. exists (ex_st []). split; [exact ex_scene|]. computed. Qed.
Print Assumptions C01_unpatch_success_refuted.

(** ** C02.  Whatever the environment answers, wherever the tool dies: only the
    region and the entries of replaced functions can change, and the tool neither
    hangs nor accesses memory it does not own. *)
Theorem C02_patching_frame : forall A jent pg p off n o base,
  scene A jent pg p off n o base -> forall s,
  let '(r, _, s') := object_apply_patch A jent pg o s in
  r <> Hang /\ r <> UB /\
  forall x, ~ in_range x base (region_size A jent pg p off n) ->
    ~ replaced_byte A jent pg p off n base x -> sm s' x = sm s x.
Proof. exact patching_frame. Qed.
Print Assumptions C02_patching_frame.

(** The same with the roll-back that follows a failure.  The roll-back unmaps
    address 0 when the region was never mapped, hence the condition that the
    patient has nothing there (see C55). *)
Theorem C02_patching_frame_with_rollback : forall A jent pg p off n o base,
  scene A jent pg p off n o base -> forall fuel s, (1 <= fuel)%nat -> file_clean (p_hdr p) ->
  nothing_at (sm s) 0 (region_size A jent pg p off n) ->
  let '(r, _, s') := patch_object A jent pg fuel o s in
  r <> Hang /\ r <> UB /\
  forall x, ~ in_range x base (region_size A jent pg p off n) ->
    ~ replaced_byte A jent pg p off n base x -> sm s' x = sm s x.
Proof. exact patching_frame_rollback. Qed.
Print Assumptions C02_patching_frame_with_rollback.

(** The tool dies after three bytes of the second jump. *)
Definition ex_die : list answer :=
  [AOk; AOk; AOk; AOk; AOk; AOk; AOk; AOk; AOk; AOk; AOk; AOk; AOk; ADie 3].
Example C02_hyps : scene x86 16 4096 ex_p 0 3 ex_o 0x500000 /\ file_clean (p_hdr ex_p) /\
  nothing_at (sm (ex_st ex_die)) 0 (region_size x86 16 4096 ex_p 0 3) /\
  ex_result (patch_object x86 16 4096 1 ex_o (ex_st ex_die)) = Die /\
  map (sm (snd (patch_object x86 16 4096 1 ex_o (ex_st ex_die)))) [0x400100; 0x400102; 0x400103; 0x400104]
    = [Some 233; Some 15; Some 102; Some 103] /\
  map ex_mem [0x400100; 0x400102; 0x400103; 0x400104] = [Some 99; Some 101; Some 102; Some 103].
Proof.
  split; [exact ex_scene|]. split; [exact ex_clean|]. split; [rewrite ex_size; exact ex_low|].
  computed.
Qed.

(** ** C03.  Patching failed (for whatever reason, at any point); the operations of
    the roll-back succeed.  Outside the region nothing has changed; and if the tool
    got as far as knowing the region (or the failure came before anything was
    changed), nothing at all has. *)
Theorem C03_rollback_restores : forall A jent pg p off n o base,
  scene A jent pg p off n o base -> forall fuel s o' s', (1 <= fuel)%nat -> file_clean (p_hdr p) ->
  nothing_at (sm s) 0 (region_size A jent pg p off n) ->
  nothing_at (sm s) base (region_size A jent pg p off n) ->
  object_apply_patch A jent pg o s = (Err, o', s') ->
  let '(_, _, s'') := object_unapply_patch A pg fuel true o' (quiet s') in
  (forall x, ~ in_range x base (region_size A jent pg p off n) -> sm s'' x = sm s x) /\
  (o_kpta o' <> 0 \/ (forall x, sm s' x = sm s x) -> forall x, sm s'' x = sm s x).
Proof. exact rollback_restores. Qed.
Print Assumptions C03_rollback_restores.

(** The write of the second jump fails after three bytes. *)
Definition ex_fail : list answer :=
  [AOk; AOk; AOk; AOk; AOk; AOk; AOk; AOk; AOk; AOk; AOk; AOk; AOk; AShort 3].
Example C03_hyps : scene x86 16 4096 ex_p 0 3 ex_o 0x500000 /\ file_clean (p_hdr ex_p) /\
  nothing_at (sm (ex_st ex_fail)) 0 (region_size x86 16 4096 ex_p 0 3) /\
  nothing_at (sm (ex_st ex_fail)) 0x500000 (region_size x86 16 4096 ex_p 0 3) /\
  ex_result (object_apply_patch x86 16 4096 ex_o (ex_st ex_fail)) = Err /\
  o_kpta (snd (fst (object_apply_patch x86 16 4096 ex_o (ex_st ex_fail)))) = 0x500000 /\
  sm (snd (object_apply_patch x86 16 4096 ex_o (ex_st ex_fail))) 0x400100 = Some 233.
Proof.
  split; [exact ex_scene|]. split; [exact ex_clean|]. split; [rewrite ex_size; exact ex_low|].
  split; [rewrite ex_size; exact ex_free|]. computed.
Qed.

(** ** C59.  It is not true that a failed patch leaves no memory behind: the mmap
    system call was executed but reading back its result failed. *)
Theorem C59_region_leak_refuted : exists s : st,
  scene x86 16 4096 ex_p 0 3 ex_o 0x500000 /\ sm s 0x500000 = None /\
  let r := patch_object x86 16 4096 10 ex_o s in
  fst (fst r) = Err /\ so (snd r) = [] /\ sm (snd r) 0x500000 = Some 0.
Proof. exists (ex_st [AOk; AShort 1]). split; [exact ex_scene|]. computed. Qed.
Print Assumptions C59_region_leak_refuted.

(** ** C04.  Patching several objects is not all-or-nothing: the second object's
    region cannot be mapped, the tool reports failure, the first object stays
    patched. *)
Definition ex_entries2 : list (list Z) := [ex_entry 0x408000 0x601000 16 20].
Definition ex_o2 : obj :=
  let o := ex_obj (ex_patch ex_entries2) in
  {| o_patch := o_patch o; o_is_patch := false; o_applied := []; o_hdr := None; o_info := None;
     o_kpta := 0; o_find := fun _ => 0x600000 |}.
Definition ex_second_fails : list answer := repeat AOk 15 ++ [AOk; AShort 0].
Theorem C04_all_or_nothing_refuted : exists (objs : list obj) (s : st),
  let r := apply_patches x86 16 4096 10 objs 0 s in
  fst (fst r) = Err /\ so (snd r) = [] /\
  sm s 0x400000 = Some 94 /\ sm (snd r) 0x400000 = Some 233 /\
  sm s 0x500000 = None /\ sm (snd r) 0x500000 <> None.
Proof. exists [ex_o; ex_o2], (ex_st ex_second_fails). computed. Qed.
Print Assumptions C04_all_or_nothing_refuted.

(** ** C05.  The tool dies at any point of patching (or of the roll-back).  A later
    unpatch either refuses and changes nothing, or succeeds and all of memory is as
    before patching. *)
Theorem C05_unpatch_after_crash : forall A jent pg p off n o base,
  scene A jent pg p off n o base -> forall fuel fuel' id bid s,
  (1 <= fuel)%nat -> (n < fuel')%nat -> file_clean (p_hdr p) -> labelled (p_hdr p) id bid ->
  (forall img jt, p_link p base (region_hdr A jent pg p off n) = Some (img, jt) -> table_ok img off n) ->
  nothing_at (sm s) 0 (region_size A jent pg p off n) ->
  nothing_at (sm s) base (region_size A jent pg p off n) ->
  forall o' s', patch_object A jent pg fuel o s = (Die, o', s') ->
  let '(r, s'') := unpatch_object A pg fuel' bid id base (quiet s') in
  (r = Err /\ forall x, sm s'' x = sm s' x) \/
  (r = Ret 1 /\ forall x, sm s'' x = sm s x).
Proof. exact crash_then_unpatch. Qed.
Print Assumptions C05_unpatch_after_crash.

(** The hypotheses of C05 are those of C02_hyps and C01_hyps; both cases of the
    conclusion occur. *)
Example C05_both_cases :
  (let r := patch_object x86 16 4096 1 ex_o (ex_st ex_die) in
   ex_result r = Die /\ fst (unpatch_object x86 4096 10 ex_bid ex_id 0x500000 (quiet (snd r))) = Err) /\
  (let r := patch_object x86 16 4096 1 ex_o (ex_st (repeat AOk 14 ++ [ADie 1])) in
   ex_result r = Die /\ fst (unpatch_object x86 4096 10 ex_bid ex_id 0x500000 (quiet (snd r))) = Ret 1).
Proof. computed. Qed.

(** ** C56.  After a crash in the middle a patch cannot in general be cancelled: the
    jump is installed but the region is not yet recognised as a patch. *)
Theorem C56_cancel_after_crash_refuted : exists s : st,
  scene x86 16 4096 ex_p 0 3 ex_o 0x500000 /\
  let r := patch_object x86 16 4096 10 ex_o s in
  fst (fst r) = Die /\ sm s 0x400000 = Some 94 /\ sm (snd r) 0x400000 = Some 233 /\
  forall fuel bid id, fst (unpatch_object x86 4096 fuel bid id 0x500000 (quiet (snd r))) = Err.
Proof.
  exists (ex_st ex_die). split; [exact ex_scene|]. cbv zeta.
  assert (E2 : sx (snd (patch_object x86 16 4096 10 ex_o (ex_st ex_die))) 0x500000 = false) by computed.
  split; [computed|]. split; [computed|]. split; [computed|].
  intros fuel bid id. generalize dependent (snd (patch_object x86 16 4096 10 ex_o (ex_st ex_die))). intros s' E2.
  unfold unpatch_object, recognise_patch, mem_read, pop, quiet. cbn [so sm sx].
  destruct (mread _ _ _); cbn [sx]; rewrite ?E2; reflexivity.
Qed.
Print Assumptions C56_cancel_after_crash_refuted.

(** ** C06.  A patch whose id is already applied to the object is refused and the
    patient is not touched. *)
Theorem C06_duplicate_refused : forall A jent pg o p s, o_patch o = Some p ->
  applied_by_id o (hdr_str (p_hdr p) h_id) = true ->
  let '(r, _, s') := object_apply_patch A jent pg o s in
  (r = Err \/ r = Die \/ o_is_patch o = true) /\ sm s' = sm s /\ sx s' = sx s.
Proof. exact duplicate_refused. Qed.
Print Assumptions C06_duplicate_refused.

Example C06_hyps :
  let o := {| o_patch := Some ex_p; o_is_patch := false; o_applied := [repeat 7 504; ex_hdr 9]; o_hdr := None;
              o_info := None; o_kpta := 0; o_find := fun _ => 0x600000 |} in
  applied_by_id o (hdr_str (p_hdr ex_p) h_id) = true /\
  ex_result (object_apply_patch x86 16 4096 o (ex_st [])) = Err.
Proof. computed. Qed.

(** ** C07.  Header, jump table, image and saved code are inside the region and do
    not overlap; image and end of the region are page aligned; the offsets in the
    header are the ones below. *)
Theorem C07_layout_disjoint : forall A jent pg h undef off n h' sz,
  0 < a_hunk A <= 16 -> page_ok pg -> 0 < jent <= 64 ->
  zlen h = hdr_size -> bytes_ok h -> 0 <= off -> 0 <= undef -> hdr_size <= get32 h h_total_size ->
  4096 + 4 * pg + undef * jent + get32 h h_total_size + off + a_hunk A * Z.of_nat n < 2 ^ 32 ->
  layout A jent pg h undef off n = (h', sz) ->
  (undef <> 0 -> hdr_size <= get32 h' h_jmp_offset /\
     get32 h' h_jmp_offset + (16 + undef * jent) <= get32 h' h_elf_offset) /\
  hdr_size <= get32 h' h_elf_offset /\ get32 h' h_elf_offset mod pg = 0 /\
  get32 h' h_elf_offset + (get32 h h_total_size - hdr_size) <= get32 h' h_user_undo /\
  get32 h' h_user_info = off + get32 h' h_elf_offset /\
  get32 h' h_user_undo + a_hunk A * Z.of_nat n <= sz /\
  get64 h' h_total_mem = sz /\ sz mod pg = 0 /\ 0 < sz /\
  zlen h' = hdr_size /\
  forall k, (k < 164 \/ (172 <= k < 176) \/ 192 <= k)%nat -> nth k h' 0 = nth k h 0.
Proof.
  intros A jent pg h undef off n h' sz H1 H2 H3 H4 H5 H6 H7 H8 H9 H10.
  destruct (layout_spec A jent pg h undef off n h' sz H1 H2 H3 H4 H5 H6 H7 H8 H9 H10).
  unfold hdr_size in *. rewrite lf_jt in *. unfold zlen. rewrite lf_len.
  repeat split; auto; try lia; try (intros k Hk; apply lf_same; lia).
Qed.
Print Assumptions C07_layout_disjoint.

Example C07_hyps : 0 < a_hunk x86 <= 16 /\ page_ok 4096 /\ zlen (ex_hdr 5000) = hdr_size /\ bytes_ok (ex_hdr 5000) /\
  hdr_size <= get32 (ex_hdr 5000) h_total_size /\
  let '(h', sz) := layout x86 16 4096 (ex_hdr 5000) 300 64 7 in
  get32 h' h_jmp_offset = 504 /\ get32 h' h_elf_offset = 8192 /\ get32 h' h_user_undo = 13312 /\ sz = 16384.
Proof.
  split; [cbn; lia|]. split; [exists 12; split; [lia|reflexivity]|]. split; [reflexivity|].
  split; [byte_check|]. split; [vm_compute; congruence|]. computed.
Qed.

(** ** C53.  The table read back from the patient is exactly the table of the patch. *)
Theorem C53_table_read_back : forall pg s, so s = [] -> info_size <= pg ->
  forall tab a fuel last,
  0 <= a -> a + info_size * zlen tab + pg <= 2 ^ 63 ->
  mapped (sm s) a (info_size * (zlen tab + 1)) ->
  (forall j bs, mread (sm s) (a + info_size * Z.of_nat j) 48 = Some bs -> (j < length tab)%nat ->
     info_of bs = nth j tab zinfo /\ is_end_info (info_of bs) = false) ->
  mread (sm s) (a + info_size * zlen tab) 48 = Some last -> is_end_info (info_of last) = true ->
  (length tab < fuel)%nat ->
  read_infos pg fuel (iter_init pg) a [] s = (Ret tab, s).
Proof.
  intros pg s H1 H2 tab a fuel last H3 H4 H5 H6 H7 H8 H9.
  apply (read_infos_spec pg s H1 H2 tab (iter_init pg) a [] fuel last); auto.
  apply iter_init_ok. unfold info_size in H2. lia.
Qed.
Print Assumptions C53_table_read_back.

(** The table of the example patch is read back from the patched patient. *)
Example C53_hyps : fst (read_infos 4096 10 (iter_init 4096) 0x501000 [] ex_after)
  = Ret (infos_of (ex_img ex_entries) 0 3) /\
  map daddr (infos_of (ex_img ex_entries) 0 3) = [0x400000; 0; 0x400100].
Proof. computed. Qed.

(** ** C54.  A function new in the patch: patching does nothing for its entry, and
    unpatching behaves as if the entry were not there, at any position. *)
Theorem C54_new_function_not_written : forall A o h l j i s, o_info o = Some l -> nth_error l j = Some i ->
  is_new_func i = true -> apply_hunk A h j o s = (Ret tt, o, s).
Proof. exact new_function_not_written. Qed.
Print Assumptions C54_new_function_not_written.

Theorem C54_new_function_not_restored : forall A check undo i, is_new_func i = true -> forall l1 q l2 s,
  restore_hunks A check undo q (l1 ++ i :: l2) s =
  (restore_hunks A check undo q l1 ;;; restore_hunks A check undo (S (q + length l1)) l2) s.
Proof. exact new_function_not_restored. Qed.
Print Assumptions C54_new_function_not_restored.

Example C54_hyps : exists i, nth_error (infos_of (ex_img ex_entries) 0 3) 1 = Some i /\ is_new_func i = true /\
  saddr i = 0x501020 /\ slen i = 8.
Proof. eexists. computed. Qed.

(** ** C55.  A failed allocation does unmap memory of the patient: the clean-up calls
    munmap(0, region size), and a program linked at 4 MiB has code there when the
    patch is larger than that. *)
Definition ex_big : patch :=
  {| p_hdr := ex_hdr 0x400000; p_info := Some (0, 1%nat); p_infos0 := [zinfo]; p_data_off := 0; p_undef := 0;
     p_link := fun _ _ => None |}.
Theorem C55_failed_allocation_refuted : exists s : st,
  patch_ok x86 16 4096 ex_big 0 1 /\ fresh (ex_obj ex_big) ex_big /\
  let r := patch_object x86 16 4096 10 (ex_obj ex_big) s in
  fst (fst r) = Err /\ so (snd r) = [] /\ sm s 0x400000 = Some 94 /\ sm (snd r) 0x400000 = None.
Proof.
  exists (ex_st [AOk; AShort 0]). split; [|split; [split; reflexivity|computed]].
  split.
  - vm_compute. reflexivity.
  - byte_check.
  - reflexivity.
  - lia.
  - vm_compute. congruence.
  - vm_compute. congruence.
  - vm_compute. congruence.
  - vm_compute. reflexivity.
  - reflexivity.
  - repeat constructor.
  - intros. discriminate.
Qed.
Print Assumptions C55_failed_allocation_refuted.

(** ** C57.  Entries closer together than one jump are not refused, and cancelling such
    a patch does not restore the code: the second save contains the first jump. *)
Definition ex_close : patch := ex_patch [ex_entry 0x400000 0x501000 16 20; ex_entry 0x400002 0x501040 32 8].
Theorem C57_overlapping_entries_refuted : exists s : st,
  patch_ok x86 16 4096 ex_close 0 2 /\
  let r := object_apply_patch x86 16 4096 (ex_obj ex_close) s in
  let u := unpatch_object x86 4096 10 ex_bid ex_id 0x500000 (quiet (snd r)) in
  fst (fst r) = Ret 1 /\ fst u = Ret 1 /\ sm s 0x400002 = Some 96 /\ sm (snd u) 0x400002 = Some 15.
Proof.
  exists (ex_st []). split.
  - split.
    + vm_compute. reflexivity.
    + byte_check.
    + reflexivity.
    + lia.
    + vm_compute. congruence.
    + vm_compute. congruence.
    + vm_compute. congruence.
    + vm_compute. reflexivity.
    + reflexivity.
    + repeat constructor.
    + intros kpta h img jt E. apply some_inj in E. injection E as <- <-. split; [vm_compute; reflexivity|].
      split; [byte_check|]. split; [vm_compute; reflexivity|]. repeat constructor.
  - computed.
Qed.
Print Assumptions C57_overlapping_entries_refuted.

(** ** C58.  What a reported success means: header and image are in place, the region
    is recognisable, and at the entry of each replaced function stands the jump to
    its replacement while the original bytes are in the saved-code slot of the
    entry's number. *)
Theorem C58_patch_effective : forall A jent pg p off n o base,
  scene A jent pg p off n o base -> forall s o' s' k,
  object_apply_patch A jent pg o s = (Ret k, o', s') ->
  let h' := region_hdr A jent pg p off n in
  k = 1 /\ o_kpta o' = base /\ sx s' base = true /\
  exists img jt, p_link p base h' = Some (img, jt) /\
    written (sm s') base h' /\ written (sm s') (base + get32 h' h_elf_offset) img /\
    forall j i, nth_error (infos_of img off n) j = Some i -> is_new_func i = false ->
      exists code, a_code A (daddr i) (saddr i) = Some code /\
        written (sm s') (daddr i) code /\
        forall q, 0 <= q < a_hunk A ->
          sm s' (base + get32 h' h_user_undo + Z.of_nat j * a_hunk A + q) = sm s (daddr i + q).
Proof. exact patch_effective. Qed.
Print Assumptions C58_patch_effective.

(** On x86-64: executing the bytes found at the entry leads to the replacement. *)
Theorem C58_x86_calls_replacement : forall jent pg p off n o base,
  scene x86 jent pg p off n o base -> forall s o' s' k,
  object_apply_patch x86 jent pg o s = (Ret k, o', s') ->
  exists img jt, p_link p base (region_hdr x86 jent pg p off n) = Some (img, jt) /\
    forall j i, nth_error (infos_of img off n) j = Some i -> is_new_func i = false ->
      addr_ok (daddr i) -> addr_ok (saddr i) ->
      - 2 ^ 31 <= sext 64 (saddr i - daddr i - 5) < 2 ^ 31 ->
      exists bs, mread (sm s') (daddr i) 5 = Some bs /\ x86_exec (daddr i) bs = Some (saddr i).
Proof.
  intros jent pg p off n o base SC s o' s' k Happ.
  destruct (patch_effective _ _ _ _ _ _ _ _ SC s o' s' k Happ) as (_ & _ & _ & img & jt & Hl & _ & _ & Hc).
  exists img, jt. split; [exact Hl|]. intros j i Hn Hw Hd Hs Hr.
  destruct (Hc j i Hn Hw) as (code & E & W & _). cbn [x86 a_code] in E. apply some_inj in E. subst code.
  exists (x86_code (daddr i) (saddr i)). split.
  - apply mread_spec. pose proof (JumpProofs.code_length_x86 (daddr i) (saddr i)) as L.
    cbn [x86 a_hunk] in L. unfold zlen in L. split; [lia|].
    intros x Hx. unfold in_range in Hx. specialize (W (x - daddr i)). unfold zlen in W.
    replace (daddr i + (x - daddr i)) with x in W by lia. apply W. lia.
  - apply JumpProofs.x86_jump_iff; auto.
Qed.
Print Assumptions C58_x86_calls_replacement.

Example C58_hyps : scene x86 16 4096 ex_p 0 3 ex_o 0x500000 /\
  ex_result (object_apply_patch x86 16 4096 ex_o (ex_st [])) = Ret 1 /\
  mread (sm ex_after) 0x400100 5 = Some [233; 59; 15; 16; 0] /\
  x86_exec 0x400100 [233; 59; 15; 16; 0] = Some 0x501040.
Proof. split; [exact ex_scene|]. computed. Qed.
