(** C26, C28, C67-C70: the patch store.  See DESIGN.md. *)
From Coq Require Import ZArith List Bool Lia String.
From Verif Require Import Base BaseProofs RbModel RbSpec RbProofs StorageModel StorageSpec StorageProofs.
Import ListNotations.
Open Scope Z_scope.
Open Scope list_scope.

(** A file of 568 bytes: header with the given build id and declared size, then an
    ELF header with the given section table offset. *)
Definition sample (bid : list Z) (total shoff : Z) : list Z :=
  str "KPATCH1" ++ [0] ++ repeat 0 80 ++ bid ++ repeat 0 (48 - length bid) ++ repeat 0 16
  ++ le_bytes 4 504 ++ repeat 0 4 ++ le_bytes 4 total ++ repeat 0 340
  ++ [127; 69; 76; 70] ++ repeat 0 12 ++ [1; 0] ++ repeat 0 22 ++ le_bytes 8 shoff ++ repeat 0 10 ++ [64; 0] ++ repeat 0 4.
Definition bid_a : list Z := repeat 97 40.
Definition bid_b : list Z := repeat 98 40.
(** Holds [bid_a] as level 3 and [bid_b] as a plain file. *)
Definition fs0 : fsys :=
  {| fs_file := fun p => if list_eqb p (path_latest bid_a) then Some (sample bid_a 568 64)
                         else if list_eqb p (path_plain bid_b) then Some (sample bid_b 568 64) else None;
     fs_stat := fun p => if list_eqb p (path_latest bid_a) then SSize 568
                         else if list_eqb p (path_plain bid_b) then SSize 568 else SNoent;
     fs_link := fun p => if list_eqb p (path_latest_dir bid_a) then Some [51] else None |}.

Lemma bytes_ok_forallb l : forallb (fun b => (0 <=? b) && (b <? 256)) l = true -> bytes_ok l.
Proof.
  rewrite forallb_forall. intros H. unfold bytes_ok. apply Forall_forall. intros b Hb.
  specialize (H b Hb). unfold byte_ok. apply andb_true_iff in H. lia.
Qed.
Lemma fs0_ok : fs_ok fs0.
Proof.
  intros p d. cbn [fs0 fs_file]. destruct (list_eqb p (path_latest bid_a)).
  - intros H. apply some_inj in H. subst d. apply bytes_ok_forallb. vm_compute. reflexivity.
  - destruct (list_eqb p (path_plain bid_b)); [|discriminate].
    intros H. apply some_inj in H. subst d. apply bytes_ok_forallb. vm_compute. reflexivity.
Qed.
Lemma bid_ok_dec b : forallb (fun c => (0 <? c) && (c <? 256)) b = true -> zlen b <= 40 -> bid_ok b.
Proof.
  intros H Hl. split; [|exact Hl]. unfold str_ok. apply Forall_forall. intros c Hc.
  rewrite forallb_forall in H. specialize (H c Hc). apply andb_true_iff in H. lia.
Qed.
Lemma bid_a_ok : bid_ok bid_a. Proof. apply bid_ok_dec; vm_compute; [reflexivity|discriminate]. Qed.
Lemma bid_b_ok : bid_ok bid_b. Proof. apply bid_ok_dec; vm_compute; [reflexivity|discriminate]. Qed.
Lemma samples_wf : well_formed (sample bid_a 568 64) /\ well_formed (sample bid_b 568 64).
Proof.
  split.
  - destruct (verify_spec (sample bid_a 568 64)) as (b & E & Hb);
      [apply bytes_ok_forallb; vm_compute; reflexivity|vm_compute; discriminate|].
    vm_compute in E. apply Hb. congruence.
  - destruct (verify_spec (sample bid_b 568 64)) as (b & E & Hb);
      [apply bytes_ok_forallb; vm_compute; reflexivity|vm_compute; discriminate|].
    vm_compute in E. apply Hb. congruence.
Qed.

(** C26.  In every sequence of lookups in one directory, every answer is the patch
    the directory holds for that build id; an error when it holds none or memory
    ran out.  No out-of-bounds access, never a null patch. *)
Theorem C26_lookup_independent_of_history fs cs : fs_ok fs ->
  Forall (fun c => c_fs c = fs /\ bid_ok (c_bid c)) cs ->
  Forall2 (fun c r =>
      (exists d, r = LFound (Some d) /\ stored fs (c_bid c) d)
      \/ (r = LErr /\ (c_ok c = false \/ forall d, ~ stored fs (c_bid c) d)))
    cs (run_loads Leaf cs).
Proof. intros Hf Hc. apply (loads_const fs Hf cs Leaf tgood_leaf); auto. intros p []. Qed.
Print Assumptions C26_lookup_independent_of_history.

(** There is at most one such patch. *)
Theorem C26_stored_unique fs bid d1 d2 : stored fs bid d1 -> stored fs bid d2 -> d1 = d2.
Proof. exact (stored_unique fs bid d1 d2). Qed.
Print Assumptions C26_stored_unique.

(** The same for queries without loading. *)
Theorem C26_query_independent_of_history fs cs : sizes_ok fs ->
  Forall (fun c => c_fs c = fs /\ bid_ok (c_bid c)) cs ->
  Forall2 (fun c r => stat_stored fs (c_bid c) r
                      \/ (r = HErr /\ (c_ok c = false \/ forall x, ~ stat_stored fs (c_bid c) x)))
    cs (run_haves Leaf cs).
Proof. intros Hf Hc. apply (haves_const fs Hf cs Leaf tgood_leaf); auto. intros p []. Qed.
Print Assumptions C26_query_independent_of_history.

(** Looking up the patches of all objects of a process: exactly the ELF objects
    that are no kernel objects, have a build id and for whose build id the
    directory holds a patch get that patch; the result is their number. *)
Theorem C26_lookup_patches fs os : fs_ok fs ->
  Forall (fun o => forall bid, so_bid o = Some bid -> bid_ok bid) os ->
  let '(l, n) := lookup_patches fs Leaf os 0 in
  Forall2 (fun o x =>
      (exists bid d, so_elf o = true /\ so_kernel o = false /\ so_bid o = Some bid /\ stored fs bid d /\ x = Some (Some d))
      \/ (x = None /\ forall bid, so_elf o = true -> so_kernel o = false -> so_bid o = Some bid ->
                       forall d, ~ stored fs bid d)) os l
  /\ n = zlen (filter (fun x => match x with Some _ => true | None => false end) l).
Proof.
  intros Hf Ho. destruct (lookup_patches fs Leaf os 0) as [l n] eqn:E.
  apply (lookup_spec fs Hf os Leaf 0 l n tgood_leaf); auto. intros p [].
Qed.
Print Assumptions C26_lookup_patches.

(** Mixing the two is not independent of history: after a query without loading,
    the lookup of the same build id reports a patch and gives none. *)
Theorem C26_query_then_lookup_refuted :
  exists fs bid t, fs_ok fs /\ bid_ok bid /\ (exists d, stored fs bid d)
    /\ have_patch fs true Leaf bid = (HFound 568 3, t)
    /\ fst (load_patch fs true t bid) = LFound None.
Proof.
  exists fs0, bid_a. eexists. split; [exact fs0_ok|]. split; [exact bid_a_ok|]. split.
  - eexists. eapply (via_latest _ _ (sample bid_a 568 64) _ [51] 3).
    + split; [reflexivity|vm_compute; discriminate].
    + exact (proj1 samples_wf).
    + vm_compute. reflexivity.
    + vm_compute. split; reflexivity.
    + vm_compute. reflexivity.
    + lia.
    + apply set_level_leveled. vm_compute. discriminate.
  - split; vm_compute; reflexivity.
Qed.
Print Assumptions C26_query_then_lookup_refuted.

Example C26_case :
  let cs := map (fun b => {| c_fs := fs0; c_ok := true; c_bid := b |}) [bid_a; bid_b; repeat 99 40; bid_a] in
  Forall (fun c => c_fs c = fs0 /\ bid_ok (c_bid c)) cs
  /\ map (fun r => match r with LFound (Some d) => zlen d | LErr => -1 | _ => -2 end) (run_loads Leaf cs)
     = [568; 568; -1; 568].
Proof.
  split; [|vm_compute; reflexivity].
  repeat constructor; try exact bid_a_ok; try exact bid_b_ok; vm_compute; try discriminate; auto.
Qed.

(** C67.  Whatever happens to the directory between the calls: when a lookup has
    found a patch, every later lookup of that build id returns the same one. *)
Theorem C67_found_patch_stays cs : Forall (fun c => fs_ok (c_fs c) /\ bid_ok (c_bid c)) cs ->
  forall i j ci cj d, (i <= j)%nat -> nth_error cs i = Some ci -> nth_error cs j = Some cj ->
  c_bid ci = c_bid cj -> nth_error (run_loads Leaf cs) i = Some (LFound d) ->
  nth_error (run_loads Leaf cs) j = Some (LFound d) /\ exists x, d = Some x.
Proof. intros Hc. apply loads_stable; auto; [exact tgood_leaf|intros p []]. Qed.
Print Assumptions C67_found_patch_stays.

Definition fs_empty : fsys := {| fs_file := fun _ => None; fs_stat := fun _ => SNoent; fs_link := fun _ => None |}.
Example C67_case :
  let cs := [{| c_fs := fs0; c_ok := true; c_bid := bid_a |}; {| c_fs := fs_empty; c_ok := false; c_bid := bid_a |}] in
  Forall (fun c => fs_ok (c_fs c) /\ bid_ok (c_bid c)) cs
  /\ exists d, run_loads Leaf cs = [LFound (Some d); LFound (Some d)].
Proof.
  split.
  - constructor; [split; [exact fs0_ok|exact bid_a_ok]|]. constructor; [|constructor].
    split; [intros p d H; discriminate|exact bid_a_ok].
  - eexists. vm_compute. reflexivity.
Qed.

(** C28.  Accepted are exactly the files that are long enough for the header and
    well formed: magic, declared size inside the file, ELF header of a relocatable
    object inside the file.  The check itself reads only inside the file. *)
Theorem C28_accepted_iff_well_formed_partial d : bytes_ok d ->
  (single_init (Some d) = Some d <-> 504 <= zlen d /\ well_formed d)
  /\ (504 <= zlen d -> verify d <> None).
Proof.
  intros Hd. unfold single_init, open_fd. unfold hdr_size.
  destruct (Z.ltb_spec (zlen d) 504) as [C|C].
  - split; [split; [discriminate|lia]|lia].
  - destruct (verify_spec d Hd C) as (b & -> & Hb). split; [|discriminate].
    destruct b; split.
    + intros _. split; [exact C|apply Hb; reflexivity].
    + reflexivity.
    + discriminate.
    + intros [_ W]. apply Hb in W. discriminate.
Qed.
Print Assumptions C28_accepted_iff_well_formed_partial.

(** Missing and false: the declared size may be smaller than the header ... *)
Theorem C28_short_size_accepted_refuted :
  exists d, bytes_ok d /\ single_init (Some d) = Some d
    /\ exists b, slice d 160 4 = Some b /\ le_val b < 504.
Proof.
  exists (sample bid_a 0 64). split; [apply bytes_ok_forallb; vm_compute; reflexivity|].
  split; [vm_compute; reflexivity|]. eexists. split; [vm_compute; reflexivity|]. vm_compute. reflexivity.
Qed.
Print Assumptions C28_short_size_accepted_refuted.

(** ... and the section table may lie outside the file, though it is read next
    (load_kpatch_info, kpatch_elf.c:899-927). *)
Theorem C28_sections_outside_accepted_refuted :
  exists d koff shoff, bytes_ok d /\ single_init (Some d) = Some d
    /\ (exists b, slice d 152 4 = Some b /\ le_val b = koff)
    /\ (exists b, slice d (koff + 40) 8 = Some b /\ le_val b = shoff)
    /\ zlen d < koff + shoff.
Proof.
  exists (sample bid_a 568 65536), 504, 65536. split; [apply bytes_ok_forallb; vm_compute; reflexivity|].
  split; [vm_compute; reflexivity|].
  split; [eexists; split; vm_compute; reflexivity|]. split; [eexists; split; vm_compute; reflexivity|].
  vm_compute. reflexivity.
Qed.
Print Assumptions C28_sections_outside_accepted_refuted.

Example C28_case : bytes_ok (sample bid_a 568 64) /\ 504 <= zlen (sample bid_a 568 64)
  /\ well_formed (sample bid_a 568 64) /\ single_init (Some (firstn 567 (sample bid_a 568 64))) = None.
Proof.
  split; [apply bytes_ok_forallb; vm_compute; reflexivity|]. split; [vm_compute; discriminate|].
  split; [exact (proj1 samples_wf)|]. vm_compute. reflexivity.
Qed.

(** C68.  Patching goes on after the "before" script exactly when the store is no
    directory, has no such script, or the script ended with exit code 0 ... *)
Theorem C68_before_script_gate_partial is_dir ac n :
  (0 <= n < 256 -> (script_gate is_dir ac (Exited n) = true <->
     is_dir = false \/ ac = AcNoent \/ (ac = AcOk /\ n = 0)))
  /\ (1 <= n < 127 -> (script_gate true ac (Signaled n) = true <-> ac = AcNoent)).
Proof.
  split; intros Hn.
  - rewrite gate_exited by exact Hn. destruct is_dir, ac; cbn; try (intuition congruence).
    rewrite Z.eqb_eq. intuition congruence.
  - rewrite gate_signaled by exact Hn. destruct ac; intuition congruence.
Qed.
Print Assumptions C68_before_script_gate_partial.

(** ... but when the script could not be started (fork failed) or waited for, it may
    go on: the status is whatever was in the variable. *)
Theorem C68_script_not_run_goes_on_refuted :
  exists st st', script_gate true AcOk (NoStatus st) = true /\ script_gate true AcOk (NoStatus st') = true
    /\ w_ifexited st = true /\ w_ifexited st' = false /\ w_ifsignaled st' = false.
Proof. exists 0, 127. vm_compute. auto. Qed.
Print Assumptions C68_script_not_run_goes_on_refuted.

Example C68_case : script_gate true AcOk (Exited 0) = true /\ script_gate true AcOk (Exited 1) = false
  /\ script_gate true AcOk (Signaled 9) = false /\ script_gate true AcFail (Exited 0) = false.
Proof. vm_compute. auto. Qed.

(** C69.  Reading a description, in whatever pieces it arrives: the result is the
    whole file or, after an error of read or malloc, nothing; no byte is written
    outside the buffer. *)
Theorem C69_description_complete pg os file : 1024 < pg ->
  match desc_loop pg os file [] 0 with
  | DOk s => s = file
  | DNull => In RFail os \/ In RMallocFail os
  | DBad => False
  | DMore => True
  end.
Proof. intros Hp. apply (desc_spec pg Hp os file [] 0). auto. Qed.
Print Assumptions C69_description_complete.

Example C69_case :
  desc_loop 4096 [RSome 99; RIntr; RSome 4000; RMallocFail; RSome 0] (repeat 65 3000) [] 0 = DOk (repeat 65 3000)
  /\ desc_loop 4096 [RSome 99; RFail] (repeat 65 3000) [] 0 = DNull.
Proof. vm_compute. auto. Qed.

(** C70.  A store that is a single file answers a lookup with its patch exactly when
    the patch was made for that build id ... *)
Theorem C70_single_file_own_build_id_partial d bid r : str_ok bid -> bytes_ok d ->
  single_load d bid = r ->
  (upto_nul (firstn 40 (skipn 88 d)) = bid <-> r = LFound (Some d))
  /\ (upto_nul (firstn 40 (skipn 88 d)) <> bid <-> r = LNotFound).
Proof.
  intros Hb Hd <-. unfold single_load. change (single_buildid d) with (upto_nul (firstn 40 (skipn 88 d))).
  set (x := upto_nul (firstn 40 (skipn 88 d))).
  assert (Hx : str_ok x).
  { subst x. assert (B : bytes_ok (firstn 40 (skipn 88 d))).
    { unfold bytes_ok in *. rewrite Forall_forall in *. intros b Q. apply Hd. eapply in_skipn, in_firstn; eauto. }
    induction B as [|b l B1 B2 IH]; cbn; [constructor|]. destruct (Z.eqb_spec b 0); [constructor|].
    constructor; [unfold byte_ok in B1; lia|exact IH]. }
  pose proof (strcmp_eq x bid Hx Hb) as E. destruct (Z.eqb_spec (strcmp x bid) 0) as [C|C].
  - apply E in C. split; split; try congruence; auto. 
  - assert (x <> bid) by tauto. split; split; try congruence; auto.
Qed.
Print Assumptions C70_single_file_own_build_id_partial.

(** ... but a directory answers with whatever file has the right name: the patch may
    have been made for another build id (and then cannot be associated with the
    object again when unpatching, kpatch_process.c:424-478). *)
Definition fs1 : fsys :=
  {| fs_file := fun p => if list_eqb p (path_plain bid_a) then Some (sample bid_b 568 64) else None;
     fs_stat := fun _ => SNoent; fs_link := fun _ => None |}.
Theorem C70_directory_other_build_id_refuted :
  exists fs bid d, fs_ok fs /\ bid_ok bid /\ fst (load_patch fs true Leaf bid) = LFound (Some d)
    /\ upto_nul (firstn 40 (skipn 88 d)) <> bid.
Proof.
  exists fs1, bid_a, (sample bid_b 568 64). split.
  - intros p d. cbn [fs1 fs_file]. destruct (list_eqb p (path_plain bid_a)); [|discriminate].
    intros H. apply some_inj in H. subst d. apply bytes_ok_forallb. vm_compute. reflexivity.
  - split; [exact bid_a_ok|]. split; [vm_compute; reflexivity|]. vm_compute. discriminate.
Qed.
Print Assumptions C70_directory_other_build_id_refuted.

Example C70_case : single_load (sample bid_a 568 64) bid_a = LFound (Some (sample bid_a 568 64))
  /\ single_load (sample bid_a 568 64) bid_b = LNotFound.
Proof. vm_compute. auto. Qed.
