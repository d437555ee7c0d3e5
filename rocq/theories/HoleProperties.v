(** C12-C15, C60: free gaps of the patient's address space and the place chosen for
    a patch.  [maps] is the list of the patient's mappings as the kernel lists them,
    an object is the sub-list of its own mappings ([pick mask maps]). *)
From Verif Require Import Base BaseProofs RemoteModel JumpSpec JumpModel JumpProofs EngineModel EngineSpec
  EngineExamples HoleModel HoleSpec HoleProofs PlaceProofs.

(** ** C12.  An address belongs to a listed gap exactly if nothing is mapped within a
    page of it (address 0 counts as in use) and there is a mapping above. *)
Theorem C12_gaps_exact : forall pg maps x, page_ok pg -> maps_ok pg 0 maps ->
  (exists h, In h (gaps pg 0 0 maps) /\ in_hole h x) <->
  (pg <= x /\ (exists s e, In (s, e) maps /\ x + pg < s) /\
   forall y, x - pg <= y <= x + pg -> unmapped maps y).
Proof. exact gaps_exact0. Qed.
Print Assumptions C12_gaps_exact.

(** C12.  The gaps are listed in increasing order and do not overlap, two pages apart
    or more. *)
Theorem C12_gaps_sorted : forall pg maps l h1 m h2 r, page_ok pg -> maps_ok pg 0 maps ->
  gaps pg 0 0 maps = l ++ h1 :: m ++ h2 :: r -> hs h1 < he h1 /\ he h1 + 2 * pg < hs h2 /\ hid h1 <> hid h2.
Proof. exact gaps_sorted0. Qed.
Print Assumptions C12_gaps_sorted.

(** The memory map of a small program: code, data, a library, the stack. *)
Definition ex_maps : list (Z * Z) :=
  [(0x400000, 0x401000); (0x401000, 0x403000); (0x600000, 0x700000);
   (0x7f0000000000, 0x7f0000200000); (0x7f0000210000, 0x7f0000211000); (0x7ffc00000000, 0x7ffc00021000)].
Example C12_hyps : page_ok 4096 /\ maps_ok 4096 0 ex_maps /\
  gaps 4096 0 0 ex_maps = [{| hid := 0; hs := 0x1000; he := 0x3ff000 |};
    {| hid := 1; hs := 0x404000; he := 0x5ff000 |}; {| hid := 2; hs := 0x701000; he := 0x7effffffF000 |};
    {| hid := 3; hs := 0x7f0000201000; he := 0x7f000020f000 |};
    {| hid := 4; hs := 0x7f0000212000; he := 0x7ffbfffff000 |}].
Proof.
  split; [exists 12; split; [lia|reflexivity]|]. split; [cbn; repeat split; lia|]. vm_compute. reflexivity.
Qed.

(** ** C13.  The place found for a patch of any object found in the map: aligned, a page
    away from everything in use, every byte within reach of every byte of the
    object.  Partial: no gap below the object may end in the last [sz] bytes of the
    reach ([edge_clear]), see [C13_overlap_refuted]; the patch is not larger than the
    reach. *)
Theorem C13_region_free_and_near_partial : forall pg D maps mask sz a h,
  page_ok pg -> maps_ok pg 0 maps -> pick mask maps <> [] ->
  let os := first_start (pick mask maps) in let oe := last_end (pick mask maps) in
  oe - os <= D -> size_ok pg D sz -> edge_clear D (gaps pg 0 0 maps) oe sz ->
  find_region pg D (gaps pg 0 0 maps) (previous_hole (pick mask (prev_ids pg 0 0 None maps))) os oe sz = (a, h) ->
  a <> 2 ^ 64 - 1 ->
  a mod pg = 0 /\ (pg <= a /\ a + sz + pg < 2 ^ 64) /\
  (forall x, a - pg <= x < a + sz + pg -> unmapped maps x) /\
  (forall x y, a <= x < a + sz -> os <= y <= oe -> - D <= x - y < D - pg).
Proof. exact start_find. Qed.
Print Assumptions C13_region_free_and_near_partial.

(** The library is the fourth mapping; there is room for two pages after it and lots
    below. *)
Definition ex_lib : list bool := [false; false; false; true; false; false].
Example C13_hyps : pick ex_lib ex_maps = [(0x7f0000000000, 0x7f0000200000)] /\
  size_ok 4096 dist_x86 0x2000 /\ edge_clear dist_x86 (gaps 4096 0 0 ex_maps) 0x7f0000200000 0x2000 /\
  previous_hole (pick ex_lib (prev_ids 4096 0 0 None ex_maps)) = Some 2%nat /\
  find_region 4096 dist_x86 (gaps 4096 0 0 ex_maps) (Some 2%nat) 0x7f0000000000 0x7f0000200000 0x2000
  = (0x7f0000201000, Some {| hid := 3; hs := 0x7f0000201000; he := 0x7f000020f000 |}) /\
  fst (find_region 4096 dist_x86 (gaps 4096 0 0 ex_maps) (Some 2%nat) 0x7f0000000000 0x7f0000200000 0x10000)
  = 0x7eff80210000.
Proof.
  split; [reflexivity|]. split; [unfold size_ok, dist_x86; repeat split; lia|].
  split; [|split; [reflexivity|split; vm_compute; reflexivity]].
  intros h Hi. vm_compute in Hi. unfold dist_x86.
  repeat (destruct Hi as [<-|Hi]; [cbn; lia|]). destruct Hi.
Qed.

(** C13, x86: a jump from any function of the object to any address of the region
    found works. *)
Theorem C13_x86_jumps_reach : forall pg maps mask sz a h d s,
  page_ok pg -> maps_ok pg 0 maps -> pick mask maps <> [] ->
  let os := first_start (pick mask maps) in let oe := last_end (pick mask maps) in
  oe - os <= dist_x86 -> size_ok pg dist_x86 sz -> edge_clear dist_x86 (gaps pg 0 0 maps) oe sz ->
  find_region pg dist_x86 (gaps pg 0 0 maps) (previous_hole (pick mask (prev_ids pg 0 0 None maps))) os oe sz = (a, h) ->
  a <> 2 ^ 64 - 1 ->
  os <= d -> d + 5 <= oe -> a <= s < a + sz ->
  x86_exec d (x86_code d s) = Some s.
Proof. exact place_x86. Qed.
Print Assumptions C13_x86_jumps_reach.

Theorem C13_aarch64_jumps_reach : forall pg maps mask sz a h d s,
  page_ok pg -> maps_ok pg 0 maps -> pick mask maps <> [] ->
  let os := first_start (pick mask maps) in let oe := last_end (pick mask maps) in
  oe - os <= dist_aarch64 -> size_ok pg dist_aarch64 sz -> edge_clear dist_aarch64 (gaps pg 0 0 maps) oe sz ->
  find_region pg dist_aarch64 (gaps pg 0 0 maps) (previous_hole (pick mask (prev_ids pg 0 0 None maps))) os oe sz = (a, h) ->
  a <> 2 ^ 64 - 1 ->
  os <= d <= oe -> a <= s < a + sz -> d mod 4 = 0 -> s mod 4 = 0 ->
  a64_exec d (a64_code d s) = Some s.
Proof. exact place_a64. Qed.
Print Assumptions C13_aarch64_jumps_reach.

Example C13_jump_hyps :
  fst (find_region 4096 dist_aarch64 (gaps 4096 0 0 ex_maps) (Some 2%nat) 0x7f0000000000 0x7f0000200000 0x10000)
  = 0x7efff8210000 /\
  a64_exec 0x7f00001ffffc (a64_code 0x7f00001ffffc 0x7efff8210000) = Some 0x7efff8210000 /\
  x86_exec 0x7f00001ffffb (x86_code 0x7f00001ffffb 0x7eff80210000) = Some 0x7eff80210000.
Proof. repeat split; vm_compute; reflexivity. Qed.

(** C13 without [edge_clear] is false: a gap that ends just inside the reach is cut
    at the limit of the reach, what is left of it is smaller than the patch, and the
    region found (to be mapped with MAP_FIXED) covers the start of the mapping above
    the gap. *)
Definition bad_maps : list (Z * Z) :=
  [(0x400000, 0x403000); (0x180005000, 0x1fff00000); (0x1fff00000, 0x200000000); (0x200004000, 0x200005000)].
Definition bad_obj : list bool := [false; false; true; false].
Theorem C13_overlap_refuted : exists maps mask sz a,
  maps_ok 4096 0 maps /\ pick mask maps <> [] /\ size_ok 4096 dist_x86 sz /\
  let os := first_start (pick mask maps) in let oe := last_end (pick mask maps) in
  oe - os <= dist_x86 /\
  fst (find_region 4096 dist_x86 (gaps 4096 0 0 maps)
         (previous_hole (pick mask (prev_ids 4096 0 0 None maps))) os oe sz) = a /\
  a mod 4096 = 0 /\ exists s e, In (s, e) maps /\ a < s /\ s < a + sz.
Proof.
  exists bad_maps, bad_obj, 0x3000, 0x180003000.
  split; [cbn; repeat split; lia|]. split; [discriminate|]. split; [unfold size_ok, dist_x86; repeat split; lia|].
  cbv zeta. split; [vm_compute; congruence|]. split; [vm_compute; reflexivity|]. split; [reflexivity|].
  exists 0x180005000, 0x1fff00000. split; [right; left; reflexivity|lia].
Qed.
Print Assumptions C13_overlap_refuted.

(** C13 for LoongArch is false: places are searched up to 2 GiB away, the branch
    reaches 128 MiB. *)
Theorem C13_loongarch_reach_refuted : exists maps mask sz a d s,
  maps_ok 16384 0 maps /\ pick mask maps <> [] /\ size_ok 16384 dist_loongarch64 sz /\
  let os := first_start (pick mask maps) in let oe := last_end (pick mask maps) in
  oe - os <= dist_loongarch64 /\ edge_clear dist_loongarch64 (gaps 16384 0 0 maps) oe sz /\
  fst (find_region 16384 dist_loongarch64 (gaps 16384 0 0 maps)
         (previous_hole (pick mask (prev_ids 16384 0 0 None maps))) os oe sz) = a /\
  os <= d < oe /\ a <= s < a + sz /\ d mod 4 = 0 /\ s mod 4 = 0 /\
  la_code d s = None.
Proof.
  exists [(0x120000000, 0x120010000); (0x7f0000000000, 0x7f0000200000); (0x7f0020000000, 0x7f0020004000);
          (0x7f0020014000, 0x7f0020018000)],
    [false; false; true; false], 0x8000, 0x7f0000204000, 0x7f0020000000, 0x7f0000204000.
  split; [cbn; repeat split; lia|]. split; [discriminate|]. split; [unfold size_ok, dist_loongarch64; repeat split; lia|].
  cbv zeta. split; [vm_compute; congruence|]. split.
  { intros h Hi. vm_compute in Hi. repeat (destruct Hi as [<-|Hi]; [cbn; unfold dist_loongarch64; lia|]). destruct Hi. }
  vm_compute. repeat split; congruence.
Qed.
Print Assumptions C13_loongarch_reach_refuted.

(** C13, RISC-V: although the jump does not reach the last 2 KiB of the 2 GiB (C10),
    it reaches every place the search finds. *)
Theorem C13_riscv_jumps_reach : forall pg maps mask sz a h d s,
  page_ok pg -> maps_ok pg 0 maps -> pick mask maps <> [] ->
  let os := first_start (pick mask maps) in let oe := last_end (pick mask maps) in
  oe - os <= dist_riscv64 -> size_ok pg dist_riscv64 sz -> edge_clear dist_riscv64 (gaps pg 0 0 maps) oe sz ->
  find_region pg dist_riscv64 (gaps pg 0 0 maps) (previous_hole (pick mask (prev_ids pg 0 0 None maps))) os oe sz = (a, h) ->
  a <> 2 ^ 64 - 1 ->
  os <= d <= oe -> a <= s < a + sz -> s mod 2 = 0 ->
  rv_exec d (rv_code d s) = Some s.
Proof. exact place_rv. Qed.
Print Assumptions C13_riscv_jumps_reach.

(** ** C14.  Every gap is too small: patching the object fails (or the tool dies), and
    memory and protections are as before.  (What the roll-back after the failure does
    is C03 and C55.) *)
Theorem C14_no_place_nothing_mapped : forall A jent pg D p o holes prev os oe s,
  page_ok pg -> fresh o p ->
  (forall sz, o_find o sz = fst (find_region pg D holes prev os oe sz)) ->
  (forall off n h, p_info p = Some (off, n) -> In h holes ->
     0 <= hs h /\ hs h <= he h < 2 ^ 64 /\ he h - hs h <= region_size A jent pg p off n) ->
  let '(res, _, s') := object_apply_patch A jent pg o s in
  (res = Err \/ res = Die) /\ (forall x, sm s' x = sm s x) /\ (forall x, sx s' x = sx s x).
Proof. exact no_place. Qed.
Print Assumptions C14_no_place_nothing_mapped.

(** The patch of the examples needs two pages; the only gaps are of that size. *)
Definition ex_tight : list hole := [{| hid := 0; hs := 0x3f0000; he := 0x3f2000 |}; {| hid := 1; hs := 0x412000; he := 0x414000 |}].
Definition ex_tight_obj : obj :=
  {| o_patch := Some ex_p; o_is_patch := false; o_applied := []; o_hdr := None; o_info := None; o_kpta := 0;
     o_find := fun sz => fst (find_region 4096 dist_x86 ex_tight (Some 0%nat) 0x400000 0x410000 sz) |}.
Example C14_hyps : fresh ex_tight_obj ex_p /\ p_info ex_p = Some (0, 3%nat) /\
  region_size x86 16 4096 ex_p 0 3 = 0x2000 /\
  o_find ex_tight_obj 0x1000 = 0x412000 /\ o_find ex_tight_obj 0x2000 = 2 ^ 64 - 1 /\
  ex_result (object_apply_patch x86 16 4096 ex_tight_obj (ex_st [])) = Err.
Proof. split; [split; reflexivity|]. computed. Qed.

(** ** C15.  Any number of patches placed one after another in the same process, for any
    of its objects: they are pairwise at least a page apart, and a page away from all
    mappings.  Partial: [edge_clear] for each request, as in C13. *)
Theorem C15_patches_apart_partial : forall pg D maps sp, page_ok pg -> maps_ok pg 0 maps -> placed pg D maps sp ->
  exists patches, sp_used sp = patches ++ maps /\
    (forall l p m q r, patches = l ++ p :: m ++ q :: r -> apart pg p q) /\
    forall p m, In p patches -> In m maps -> apart pg p m.
Proof. exact placed_apart_nth. Qed.
Print Assumptions C15_patches_apart_partial.

(** C15.  The gaps stay sorted, disjoint and free. *)
Theorem C15_gaps_stay_free_partial : forall pg D maps sp, page_ok pg -> maps_ok pg 0 maps -> placed pg D maps sp ->
  (forall h x y, In h (sp_holes sp) -> in_hole h x -> x - pg <= y <= x + pg -> unmapped (sp_used sp) y) /\
  (forall l h1 m h2 r, sp_holes sp = l ++ h1 :: m ++ h2 :: r -> hs h1 <= he h1 /\ he h1 <= hs h2).
Proof. exact placed_gaps. Qed.
Print Assumptions C15_gaps_stay_free_partial.

(** C13 holds for each of these patches too. *)
Theorem C15_next_patch_partial : forall pg D maps sp r a sp' mask, page_ok pg -> maps_ok pg 0 maps -> placed pg D maps sp ->
  pick mask maps <> [] ->
  rq_prev r = previous_hole (pick mask (prev_ids pg 0 0 None maps)) ->
  rq_os r = first_start (pick mask maps) -> rq_oe r = last_end (pick mask maps) ->
  rq_oe r - rq_os r <= D -> size_ok pg D (rq_sz r) -> edge_clear D (sp_holes sp) (rq_oe r) (rq_sz r) ->
  place pg D sp r = (Some a, sp') ->
  sp_used sp' = (a, a + rq_sz r) :: sp_used sp /\ a mod pg = 0 /\
  (forall u, In u (sp_used sp) -> fst u < snd u -> apart pg (a, a + rq_sz r) u) /\
  (forall x y, a <= x < a + rq_sz r -> rq_os r <= y <= rq_oe r -> - D <= x - y < D - pg).
Proof. exact placed_next. Qed.
Print Assumptions C15_next_patch_partial.

(** Three patches for the library: two after it, one below when no room is left. *)
Definition ex_rq (sz : Z) : request :=
  {| rq_prev := Some 2%nat; rq_os := 0x7f0000000000; rq_oe := 0x7f0000200000; rq_sz := sz; rq_mmap_ok := true |}.
Fixpoint place_all (sp : space) (l : list request) : space :=
  match l with [] => sp | r :: l' => place_all (snd (place 4096 dist_x86 sp r)) l' end.
Example C15_hyps :
  sp_used (place_all (start_space 4096 ex_maps) [ex_rq 0x5000; ex_rq 0x4000; ex_rq 0x5000])
  = (0x7eff80205000, 0x7eff8020a000) :: (0x7f0000207000, 0x7f000020b000) :: (0x7f0000201000, 0x7f0000206000) :: ex_maps /\
  edge_clear dist_x86 (sp_holes (place_all (start_space 4096 ex_maps) [ex_rq 0x5000; ex_rq 0x4000]))
    0x7f0000200000 0x5000.
Proof.
  split; [vm_compute; reflexivity|]. intros h Hi. vm_compute in Hi.
  repeat (destruct Hi as [<-|Hi]; [unfold dist_x86; cbn; lia|]). destruct Hi.
Qed.

(** C15 without [edge_clear] is false, from a freshly started process. *)
Theorem C15_overlap_refuted : exists maps mask sz a sp',
  maps_ok 4096 0 maps /\ size_ok 4096 dist_x86 sz /\
  place 4096 dist_x86 (start_space 4096 maps)
    {| rq_prev := previous_hole (pick mask (prev_ids 4096 0 0 None maps));
       rq_os := first_start (pick mask maps); rq_oe := last_end (pick mask maps); rq_sz := sz; rq_mmap_ok := true |}
  = (Some a, sp') /\ exists m, In m maps /\ ~ apart 0 (a, a + sz) m.
Proof.
  exists bad_maps, bad_obj, 0x3000, 0x180003000. eexists.
  split; [cbn; repeat split; lia|]. split; [unfold size_ok, dist_x86; repeat split; lia|].
  split; [vm_compute; reflexivity|]. exists (0x180005000, 0x1fff00000). split; [right; left; reflexivity|].
  unfold apart. cbn. lia.
Qed.
Print Assumptions C15_overlap_refuted.

(** ** C60.  The search does not find every usable place: it gives up as soon as one
    direction is exhausted although the other still has room in reach.  Here the gap
    before the object is too small and is the first one, and a gap of 1 MiB follows
    a small one after the object. *)
Theorem C60_place_exists_but_not_found_refuted : exists maps mask sz a,
  maps_ok 4096 0 maps /\ size_ok 4096 dist_x86 sz /\
  let os := first_start (pick mask maps) in let oe := last_end (pick mask maps) in
  (exists h, In h (gaps 4096 0 0 maps) /\ hs h <= a /\ a + sz <= he h) /\
  (forall x y, a <= x < a + sz -> os <= y <= oe -> - dist_x86 <= x - y < dist_x86) /\
  find_region 4096 dist_x86 (gaps 4096 0 0 maps)
    (previous_hole (pick mask (prev_ids 4096 0 0 None maps))) os oe sz = (2 ^ 64 - 1, None).
Proof.
  exists [(0x4000, 0x5000); (0x8000, 0x9000); (0x200000, 0x201000)], [true; false; false], 0x2000, 0x10000.
  split; [cbn; repeat split; lia|]. split; [unfold size_ok, dist_x86; repeat split; lia|].
  cbv zeta. split; [eexists; split; [right; right; left; reflexivity|vm_compute; split; congruence]|].
  split; [unfold dist_x86; cbn; intros; lia|]. vm_compute. reflexivity.
Qed.
Print Assumptions C60_place_exists_but_not_found_refuted.
