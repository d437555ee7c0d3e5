(** C38, C75-C79: the objects of a process, the patches found in it, what is cancelled
    and what is listed. *)
From Coq Require Import String Permutation.
From Verif Require Import Base BaseProofs StorageModel StorageProofs ProcModel ProcSpec ProcProofs
  ProcSelect ProcMaps ProcInfo.
Open Scope list_scope.

(** ** A process to try the theorems on *)
Definition pad (n : nat) (s : list Z) : list Z := s ++ repeat 0 (n - List.length s).
Definition elf_page : list Z := pad 1024 [127; 69; 76; 70].
Definition patch_page (id bid : string) : list Z :=
  pad 1024 (str "KPATCH1" ++ [0] ++ pad 80 (str id) ++ str bid).
Definition rd0 (a : Z) : option (list Z) :=
  if a =? 4096 then Some elf_page
  else if a =? 8192 then Some (pad 1024 [])
  else if a =? 12288 then Some elf_page
  else if a =? 16384 then Some (patch_page "1" "aa")
  else if a =? 20480 then Some (patch_page "2" "bb")
  else if a =? 24576 then Some (patch_page "1" "aa")
  else None.
Definition line (a : Z) (dev inode : Z) (n : string) : mline :=
  {| l_start := a; l_end := a + 4096; l_prot := 5; l_dev := dev; l_inode := inode; l_name := str n |}.
Definition bid0 (a : Z) : option (list Z) :=
  if a =? 4096 then Some (str "aa") else if a =? 12288 then Some (str "bb") else None.
Definition maps0 : list mline :=
  [line 4096 5 7 "/usr/bin/foo"; line 8192 5 7 "/usr/bin/foo"; line 12288 5 9 "/lib/libc.so";
   line 16384 0 0 "[anonymous]"; line 20480 0 0 "[anonymous]"].
Definition objs0 : list pobj :=
  match parse_maps rd0 (fun _ => true) bid0 [] maps0 with POk os => os | _ => [] end.
Lemma objs0_eq : parse_maps rd0 (fun _ => true) bid0 [] maps0 = POk objs0.
Proof. vm_compute. reflexivity. Qed.
Lemma rd0_1024 : reads_1024 rd0.
Proof.
  intros a b. unfold rd0. 
  destruct (a =? 4096); [intros H; apply some_inj in H; subst b; vm_compute; reflexivity|].
  destruct (a =? 8192); [intros H; apply some_inj in H; subst b; vm_compute; reflexivity|].
  destruct (a =? 12288); [intros H; apply some_inj in H; subst b; vm_compute; reflexivity|].
  destruct (a =? 16384); [intros H; apply some_inj in H; subst b; vm_compute; reflexivity|].
  destruct (a =? 20480); [intros H; apply some_inj in H; subst b; vm_compute; reflexivity|].
  destruct (a =? 24576); [intros H; apply some_inj in H; subst b; vm_compute; reflexivity|discriminate].
Qed.

(** ** C38 *)

(** Every object that is unpatched carries a patch with the id asked for, was asked for,
    and is unpatched with the data of such a patch made for its build id. *)
Theorem C38_only_requested rd ehdr_ok bid ls os un pid sel a :
  parse_maps rd ehdr_ok bid [] ls = POk os -> In a (snd (unpatch un pid sel os)) ->
  exists j b h o, is_patch_at os j b pid (ua_kpta a) h /\ ua_hdr a = Some (firstn 504 h) /\
    is_elf_at os (ua_obj a) b o /\ requested sel b o.
Proof. intros P. apply unpatch_sound. apply (parse_fresh rd ehdr_ok bid ls [] os (Forall_nil _) P). Qed.
Print Assumptions C38_only_requested.

Theorem C38_each_object_once rd ehdr_ok bid ls os un pid sel :
  parse_maps rd ehdr_ok bid [] ls = POk os -> NoDup (map ua_obj (snd (unpatch un pid sel os))).
Proof. intros P. apply unpatch_once. apply (parse_fresh rd ehdr_ok bid ls [] os (Forall_nil _) P). Qed.
Print Assumptions C38_each_object_once.

(** All that carry it and were asked for are unpatched, if no failure is reported.
    Missing for the full statement: false when two files with the same build id are
    mapped, see [C38_same_build_id_refuted]. *)
Theorem C38_all_requested_partial rd ehdr_ok bid ls os un pid sel j b a h i o :
  parse_maps rd ehdr_ok bid [] ls = POk os -> distinct_bids os -> distinct_patches os ->
  is_patch_at os j b pid a h -> is_elf_at os i b o -> requested sel b o ->
  0 <= fst (unpatch un pid sel os) ->
  In {| ua_obj := i; ua_kpta := a; ua_hdr := Some (firstn 504 h) |} (snd (unpatch un pid sel os)).
Proof.
  intros P. apply unpatch_complete. apply (parse_fresh rd ehdr_ok bid ls [] os (Forall_nil _) P).
Qed.
Print Assumptions C38_all_requested_partial.

Theorem C38_absent_patch_refused rd ehdr_ok bid ls os un pid sel :
  parse_maps rd ehdr_ok bid [] ls = POk os ->
  ~ (exists j b a h i o, is_patch_at os j b pid a h /\ is_elf_at os i b o) ->
  unpatch un pid sel os = (-1, []).
Proof. intros P. apply unpatch_not_found. apply (parse_fresh rd ehdr_ok bid ls [] os (Forall_nil _) P). Qed.
Print Assumptions C38_absent_patch_refused.

(** The number returned is the number of objects unpatched. *)
Theorem C38_count_returned rd ehdr_ok bid ls os un pid sel :
  parse_maps rd ehdr_ok bid [] ls = POk os -> (forall i, 0 <= un i) ->
  (exists j b a h i o, is_patch_at os j b pid a h /\ is_elf_at os i b o) ->
  fst (unpatch un pid sel os) = zlen (snd (unpatch un pid sel os)).
Proof. intros P. apply unpatch_count. apply (parse_fresh rd ehdr_ok bid ls [] os (Forall_nil _) P). Qed.
Print Assumptions C38_count_returned.

(** A failure stops the work: the one that failed is the last one tried. *)
Theorem C38_stops_at_failure rd ehdr_ok bid ls os un pid sel :
  parse_maps rd ehdr_ok bid [] ls = POk os -> fst (unpatch un pid sel os) < 0 ->
  snd (unpatch un pid sel os) = [] \/
  exists l a, snd (unpatch un pid sel os) = l ++ [a] /\ un (ua_obj a) < 0.
Proof. intros P. apply unpatch_failed. apply (parse_fresh rd ehdr_ok bid ls [] os (Forall_nil _) P). Qed.
Print Assumptions C38_stops_at_failure.

Example C38_example :
  map (fun a => (ua_obj a, ua_kpta a)) (snd (unpatch (fun _ => 0) (str "1") [] objs0)) = [(0%nat, 16384)] /\
  fst (unpatch (fun _ => 0) (str "1") [] objs0) = 1 /\
  snd (unpatch (fun _ => 0) (str "1") [str "bb"] objs0) = [] /\
  map ua_obj (snd (unpatch (fun _ => 0) (str "2") [str "libc.so"] objs0)) = [1%nat] /\
  unpatch (fun _ => 0) (str "3") [] objs0 = (-1, []).
Proof. vm_compute. auto. Qed.
Example C38_example_distinct : distinct_bids objs0 /\ distinct_patches objs0.
Proof.
  split.
  - intros i i' b o o' (E & El & B) (E' & El' & B').
    destruct i as [|[|[|[|i]]]]; destruct i' as [|[|[|[|i']]]]; vm_compute in E, E';
      try reflexivity; try (destruct i; discriminate); try (destruct i'; discriminate);
      apply some_inj in E; apply some_inj in E'; subst o o'; vm_compute in El, El', B, B'; congruence.
  - intros j j' b id a a' h h' (p & v & r & E & P & H & V & A & B & I) (p' & v' & r' & E' & P' & H' & V' & A' & B' & I').
    destruct j as [|[|[|[|j]]]]; destruct j' as [|[|[|[|j']]]]; vm_compute in E, E';
      try reflexivity; try (destruct j; discriminate); try (destruct j'; discriminate);
      apply some_inj in E; apply some_inj in E'; subst p p'; vm_compute in P, P'; try discriminate;
      apply some_inj in H; apply some_inj in H'; subst h h'; vm_compute in B, B'; congruence.
Qed.

(** Two copies of a library with the same build id: the second is never unpatched, and
    the first is unpatched with the region of the second. *)
Definition bid_same (a : Z) : option (list Z) :=
  if a =? 4096 then Some (str "aa") else if a =? 12288 then Some (str "aa") else None.
Definition maps_same : list mline :=
  [line 4096 5 7 "/a/libfoo.so"; line 12288 5 9 "/b/libfoo.so";
   line 16384 0 0 "[anonymous]"; line 24576 0 0 "[anonymous]"].
Theorem C38_same_build_id_refuted : exists rd bid ls os pid i o b j a h,
  parse_maps rd (fun _ => true) bid [] ls = POk os /\ is_patch_at os j b pid a h /\
  is_elf_at os i b o /\ requested [] b o /\ fst (unpatch (fun _ => 0) pid [] os) = 1 /\
  ~ In i (map ua_obj (snd (unpatch (fun _ => 0) pid [] os))) /\
  ~ In a (map ua_kpta (snd (unpatch (fun _ => 0) pid [] os))).
Proof.
  pose (os := match parse_maps rd0 (fun _ => true) bid_same [] maps_same with POk os => os | _ => [] end).
  exists rd0, bid_same, maps_same, os, (str "1"), 1%nat.
  exists (nth 1 os {| po_dev := 0; po_inode := 0; po_name := []; po_vmas := []; po_elf := false;
    po_patch := false; po_hdr := None; po_bid := None; po_kpta := 0; po_target := false; po_applied := [] |}).
  exists (str "aa"), 2%nat, 16384, (patch_page "1" "aa").
  split; [vm_compute; reflexivity|]. split.
  { eexists. eexists. eexists. split; [vm_compute; reflexivity|]. vm_compute. auto 10. }
  split; [vm_compute; auto|]. split; [left; reflexivity|]. split; [vm_compute; reflexivity|].
  split; vm_compute; intros [H|[]]; discriminate.
Qed.
Print Assumptions C38_same_build_id_refuted.

(** ** C75: mappings and objects *)

(** Every mapping is an area of an object, and the areas of the objects are no others. *)
Theorem C75_each_mapping_in_one_object rd ehdr_ok bid ls os :
  NoDup (map l_start ls) -> parse_maps rd ehdr_ok bid [] ls = POk os ->
  Permutation (flat_map po_vmas os) (map line_vma ls).
Proof.
  intros D P. exact (mi_perm _ _ _ (parse_minv rd ehdr_ok bid ls [] [] os (minv_nil rd) D P)).
Qed.
Print Assumptions C75_each_mapping_in_one_object.

Lemma line_vma_inj ls l k : NoDup (map l_start ls) -> In l ls -> In k ls -> line_vma l = line_vma k -> l = k.
Proof.
  intros D Il Ik E. apply (f_equal v_start) in E. cbn in E.
  induction ls as [|x ls IH]; [destruct Il|]. cbn in D. inversion D as [|? ? N D']. subst.
  destruct Il as [->|Il]; destruct Ik as [->|Ik]; auto.
  - exfalso. apply N. rewrite E. apply in_map. exact Ik.
  - exfalso. apply N. rewrite <- E. apply in_map. exact Il.
Qed.

(** Two mappings of files are in the same object exactly if device and inode agree.
    Missing for the full statement: inodes are compared modulo 2^32, see
    [C75_inode_refuted]; and files whose name begins with "[anonymous]" must not hold
    a patch. *)
Theorem C75_same_object_iff_same_file_partial rd ehdr_ok bid ls os k l :
  reads_1024 rd -> NoDup (map l_start ls) ->
  (forall m, In m ls -> holds_patch rd m -> l_dev m = 0) ->
  parse_maps rd ehdr_ok bid [] ls = POk os -> In k ls -> In l ls ->
  l_dev k <> 0 -> s32 (l_inode k) <> 0 -> l_dev l <> 0 ->
  (exists o, In o os /\ In (line_vma k) (po_vmas o) /\ In (line_vma l) (po_vmas o)) <->
  l_dev k = l_dev l /\ s32 (l_inode k) = s32 (l_inode l).
Proof.
  intros R D A P Ik Il Dk Nk Dl.
  pose proof (parse_minv rd ehdr_ok bid ls [] [] os (minv_nil rd) D P) as M. cbn [app] in M.
  assert (B : forall m o, In m ls -> l_dev m <> 0 -> In o os -> In (line_vma m) (po_vmas o) ->
              po_dev o = l_dev m /\ po_inode o = s32 (l_inode m)).
  { intros m o Im Dm Io Iv. destruct (mi_belongs _ _ _ M o _ Io Iv) as (m' & Im' & Em & Bm).
    rewrite (line_vma_inj ls m' m D Im' Im Em) in Bm. destruct Bm as [Bm|[C _]]; [exact Bm|congruence]. }
  assert (F : forall m, In m ls -> exists i o, nth_error os i = Some o /\ In (line_vma m) (po_vmas o)).
  { intros m Im. pose proof (mi_perm _ _ _ M) as Pm. apply Permutation_sym in Pm.
    pose proof (Permutation_in _ Pm (in_map line_vma _ _ Im)) as I. apply in_flat_map in I as (o & Io & Iv).
    apply In_nth_error in Io as (i & Ei). eauto. }
  split.
  - intros (o & Io & Vk & Vl). destruct (B k o Ik Dk Io Vk). destruct (B l o Il Dl Io Vl).
    split; congruence.
  - intros [Ed Ei]. destruct (F k Ik) as (i & o & Eo & Vk). destruct (F l Il) as (i' & o' & Eo' & Vl).
    destruct (B k o Ik Dk (nth_error_In _ _ Eo) Vk) as [B1 B2].
    destruct (B l o' Il Dl (nth_error_In _ _ Eo') Vl) as [B3 B4].
    assert (i = i').
    { apply (mi_unique _ _ _ M) with (o := o) (o' := o'); try congruence.
      intros m Im T. apply A; [exact Im|]. apply type_kpatch; [exact R|]. unfold ispatch in T.
      destruct (get_object_type rd m); congruence. }
    subst i'. rewrite Eo in Eo'. apply some_inj in Eo'. subst o'.
    exists o. split; [exact (nth_error_In _ _ Eo)|auto].
Qed.
Print Assumptions C75_same_object_iff_same_file_partial.

Example C75_example : NoDup (map l_start maps0) /\
  (forall m, In m maps0 -> holds_patch rd0 m -> l_dev m = 0) /\
  map (fun o => (map v_start (po_vmas o), po_patch o)) objs0 =
    [([4096; 8192], false); ([12288], false); ([16384], true); ([20480], true)].
Proof.
  split; [repeat (constructor; [cbn; intuition discriminate|]); constructor|].
  split; [|vm_compute; reflexivity].
  intros m I (_ & (x & N) & _). cbn in I.
  repeat (destruct I as [<-|I]; [vm_compute in N; try discriminate; reflexivity|]). destruct I.
Qed.

(** Two different files of the same device are taken for one if their inodes agree
    modulo 2^32. *)
Theorem C75_inode_refuted : exists rd ls os k l o,
  NoDup (map l_start ls) /\ parse_maps rd (fun _ => true) (fun _ => None) [] ls = POk os /\
  In k ls /\ In l ls /\ l_dev k <> 0 /\ l_inode k <> l_inode l /\ l_name k <> l_name l /\
  0 < l_inode k < 2 ^ 64 /\ 0 < l_inode l < 2 ^ 64 /\
  In o os /\ In (line_vma k) (po_vmas o) /\ In (line_vma l) (po_vmas o).
Proof.
  pose (k := line 4096 5 7 "/usr/bin/foo"). pose (l := line 12288 5 (7 + 2 ^ 32) "/lib/libc.so").
  pose (os := match parse_maps rd0 (fun _ => true) (fun _ => None) [] [k; l] with POk os => os | _ => [] end).
  exists rd0, [k; l], os, k, l. eexists.
  split; [repeat (constructor; [cbn; intuition discriminate|]); constructor|].
  split; [vm_compute; reflexivity|]. split; [left; reflexivity|]. split; [right; left; reflexivity|].
  split; [discriminate|]. split; [vm_compute; discriminate|]. split; [vm_compute; discriminate|].
  split; [split; reflexivity|]. split; [split; reflexivity|].
  split; [vm_compute; left; reflexivity|]. vm_compute. auto.
Qed.
Print Assumptions C75_inode_refuted.

(** The name of an object: the last component of the path, or what the kernel gives
    where there is none *)
Theorem C75_object_name : forall l n, l_name l = n ->
  (forall r, n = 47 :: r -> exists d, n = d ++ 47 :: line_name l /\ ~ In 47 (line_name l))
  /\ ((forall r, n <> 47 :: r) -> line_name l = n).
Proof.
  intros l n E. unfold line_name. rewrite E. split.
  - intros r ->. cbn [Z.eqb Pos.eqb].
    assert (H : forall s acc d, d ++ 47 :: acc = d ++ 47 :: acc -> forall p, (exists q, p ++ s = q ++ 47 :: acc /\ forall x, In x acc -> x = 47 -> In x s) ->
              exists q, p ++ s = q ++ 47 :: after_slash s acc /\ ~ In 47 (after_slash s acc)).
    { clear. induction s as [|c s IH]; intros acc d _ p (q & Q & N); cbn [after_slash].
      - exists q. split; auto. intros I. exact (N 47 I eq_refl).
      - destruct (Z.eqb_spec c 47) as [->|Nc].
        + destruct (IH s [] eq_refl (p ++ [47])) as (q' & Q' & N').
          * exists p. rewrite <- app_assoc. split; auto.
          * exists q'. rewrite <- app_assoc in Q'. auto.
        + destruct (IH acc [] eq_refl (p ++ [c])) as (q' & Q' & N').
          * exists q. rewrite <- app_assoc. split; auto. intros x I Ex. destruct (N x I Ex) as [<-|]; auto. congruence.
          * exists q'. rewrite <- app_assoc in Q'. auto. }
    unfold basename. cbn [after_slash Z.eqb Pos.eqb]. destruct (H r r [] eq_refl [47]) as (q & Q & N); [exists []; split; auto|].
    exists q. auto.
  - intros H. destruct n as [|c r]; auto. destruct (Z.eqb_spec c 47) as [->|]; auto. destruct (H r eq_refl).
Qed.
Print Assumptions C75_object_name.
(** ** C76: the patches found *)

(** The patch objects are, in the order of the map, the mappings that hold a patch, and
    each has the contents of its mapping. *)
Theorem C76_patches_are_mappings_with_magic rd ehdr_ok bid ls os (holds : mline -> bool) :
  reads_1024 rd -> NoDup (map l_start ls) -> (forall l, holds l = true <-> holds_patch rd l) ->
  parse_maps rd ehdr_ok bid [] ls = POk os ->
  map po_hdr (filter po_patch os) = map (fun l => rd (l_start l)) (filter holds ls).
Proof.
  intros R D H P. rewrite (mi_patches _ _ _ (parse_minv rd ehdr_ok bid ls [] [] os (minv_nil rd) D P)).
  cbn [app]. f_equal. apply filter_ext. intros l.
  assert (E : ispatch rd l = true <-> holds l = true).
  { rewrite H, <- (type_kpatch rd l R). unfold ispatch. destruct (get_object_type rd l); intuition discriminate. }
  destruct (ispatch rd l), (holds l); intuition.
Qed.
Print Assumptions C76_patches_are_mappings_with_magic.

Example C76_example : map po_hdr (filter po_patch objs0) =
  [Some (patch_page "1" "aa"); Some (patch_page "2" "bb")].
Proof. vm_compute. reflexivity. Qed.

(** A mapping of an ordinary file can be taken for a patch, and is then unpatched. *)
Theorem C76_file_taken_for_patch_refuted : exists rd ls os j b id a h l,
  NoDup (map l_start ls) /\ parse_maps rd (fun _ => true) bid0 [] ls = POk os /\
  In l ls /\ l_start l = a /\ l_dev l <> 0 /\ l_inode l <> 0 /\ l_name l = str "/tmp/[anonymous]" /\
  is_patch_at os j b id a h /\
  map ua_kpta (snd (unpatch (fun _ => 0) id [] os)) = [a].
Proof.
  pose (ls := [line 4096 5 7 "/usr/bin/foo"; line 16384 5 8 "/tmp/[anonymous]"]).
  pose (os := match parse_maps rd0 (fun _ => true) bid0 [] ls with POk os => os | _ => [] end).
  exists rd0, ls, os, 1%nat, (str "aa"), (str "1"), 16384, (patch_page "1" "aa"), (line 16384 5 8 "/tmp/[anonymous]").
  split; [repeat (constructor; [cbn; intuition discriminate|]); constructor|].
  split; [vm_compute; reflexivity|]. split; [right; left; reflexivity|].
  split; [reflexivity|]. split; [discriminate|]. split; [discriminate|]. split; [reflexivity|].
  split; [|vm_compute; reflexivity].
  eexists. eexists. eexists. split; [vm_compute; reflexivity|]. vm_compute. auto 10.
Qed.
Print Assumptions C76_file_taken_for_patch_refuted.

(** ** C77: the name buffer *)

(** If patches are only found in mappings without a path, nothing is written behind the
    buffer for the name.  Missing: false for files called "[anonymous]...". *)
Theorem C77_name_buffer_partial rd ehdr_ok bid ls : reads_1024 rd ->
  (forall l, In l ls -> holds_patch rd l -> l_name l = line_name l) ->
  parse_maps rd ehdr_ok bid [] ls <> PBad.
Proof.
  intros R H. apply parse_no_bad. intros l I T. apply H; [exact I|]. apply type_kpatch; [exact R|].
  unfold ispatch in T. destruct (get_object_type rd l); congruence.
Qed.
Print Assumptions C77_name_buffer_partial.
Example C77_example : forall l, In l maps0 -> holds_patch rd0 l -> l_name l = line_name l.
Proof.
  intros m I (_ & (x & N) & _). cbn in I.
  repeat (destruct I as [<-|I]; [vm_compute in N; try discriminate; reflexivity|]). destruct I.
Qed.

(** A patch in a file with a long path: the new name is written behind the buffer. *)
Theorem C77_long_path_refuted : exists rd l, reads_1024 rd /\ zlen (l_name l) <= 255 /\
  ~ In 0 (l_name l) /\ parse_maps rd (fun _ => true) (fun _ => None) [] [l] = PBad.
Proof.
  pose (h := pad 1024 (str "KPATCH1" ++ [0] ++ pad 80 (str "1") ++ repeat 97 40)).
  exists (fun _ => Some h).
  exists {| l_start := 4096; l_end := 8192; l_prot := 5; l_dev := 5; l_inode := 8;
            l_name := 47 :: repeat 100 242 ++ 47 :: str "[anonymous]" |}.
  split; [intros a b E; apply some_inj in E; subst b; vm_compute; reflexivity|].
  split; [vm_compute; discriminate|]. split; [|vm_compute; reflexivity].
  assert (G : forallb (fun c => negb (c =? 0)) (47 :: repeat 100 242 ++ 47 :: str "[anonymous]") = true)
    by (vm_compute; reflexivity).
  cbn [l_name]. intros I. rewrite forallb_forall in G. specialize (G _ I). discriminate.
Qed.
Print Assumptions C77_long_path_refuted.

(** ** C78: what info lists *)

Theorem C78_info_succeeds rd ehdr_ok bid ls os : parse_maps rd ehdr_ok bid [] ls = POk os ->
  fst (info os) = 0.
Proof. intros P. apply info_spec. apply (parse_fresh rd ehdr_ok bid ls [] os (Forall_nil _) P). Qed.
Print Assumptions C78_info_succeeds.

(** What is listed is the name and build id of a mapped file, with ids, each once, of
    patches for this build id that are in the process. *)
Theorem C78_info_lists_only_present rd ehdr_ok bid ls os n b ids :
  parse_maps rd ehdr_ok bid [] ls = POk os -> In (n, b, ids) (snd (info os)) ->
  (exists i o, is_elf_at os i b o /\ po_name o = n) /\ NoDup ids /\ ids <> [] /\
  forall x, In x ids -> exists id j a h, x = Some id /\ is_patch_at os j b id a h.
Proof. intros P. apply info_sound. apply (parse_fresh rd ehdr_ok bid ls [] os (Forall_nil _) P). Qed.
Print Assumptions C78_info_lists_only_present.

(** Every patch of a mapped file is listed.  Missing: false for a second file with the
    same build id; files whose names look like "[...]" or "anon_inode..." are left out. *)
Theorem C78_info_lists_all_partial rd ehdr_ok bid ls os i b o j id a h :
  parse_maps rd ehdr_ok bid [] ls = POk os -> distinct_bids os -> is_elf_at os i b o ->
  is_kernel_name (po_name o) = false -> is_patch_at os j b id a h ->
  exists ids, In (po_name o, b, ids) (snd (info os)) /\ In (Some id) ids.
Proof.
  intros P. apply info_complete. apply (parse_fresh rd ehdr_ok bid ls [] os (Forall_nil _) P).
Qed.
Print Assumptions C78_info_lists_all_partial.

Example C78_example : info objs0 =
  (0, [(str "foo", str "aa", [Some (str "1")]); (str "libc.so", str "bb", [Some (str "2")])]).
Proof. vm_compute. reflexivity. Qed.

Theorem C78_same_build_id_refuted : exists rd bid ls os i o b j id a h,
  parse_maps rd (fun _ => true) bid [] ls = POk os /\ is_patch_at os j b id a h /\
  is_elf_at os i b o /\ is_kernel_name (po_name o) = false /\
  ~ exists b' ids, In (po_name o, b', ids) (snd (info os)).
Proof.
  pose (ls := [line 4096 5 7 "/a/libfoo.so"; line 12288 5 9 "/b/libbar.so"; line 16384 0 0 "[anonymous]"]).
  pose (os := match parse_maps rd0 (fun _ => true) bid_same [] ls with POk os => os | _ => [] end).
  exists rd0, bid_same, ls, os, 1%nat.
  exists (nth 1 os {| po_dev := 0; po_inode := 0; po_name := []; po_vmas := []; po_elf := false;
    po_patch := false; po_hdr := None; po_bid := None; po_kpta := 0; po_target := false; po_applied := [] |}).
  exists (str "aa"), 2%nat, (str "1"), 16384, (patch_page "1" "aa").
  split; [vm_compute; reflexivity|]. split.
  { eexists. eexists. eexists. split; [vm_compute; reflexivity|]. vm_compute. auto 10. }
  split; [vm_compute; auto|]. split; [vm_compute; reflexivity|].
  intros (b' & ids & I). vm_compute in I. destruct I as [I|[]]. discriminate.
Qed.
Print Assumptions C78_same_build_id_refuted.

(** ** C79: where remote system calls are made *)

(** The scratch address is the start of the first executable mapping whose file name
    begins with "libc". *)
Theorem C79_scratch_is_executable rd ls a : libc_base rd ls = Some a ->
  exists p l r, ls = p ++ l :: r /\ l_start l = a /\ Z.testbit (l_prot l) 2 = true /\
    (exists x, basename (line_name l) = str "libc" ++ x) /\
    forall m x, In m p -> Z.testbit (l_prot m) 2 = true -> get_object_type rd m <> TKpatch ->
      basename (line_name m) <> str "libc" ++ x.
Proof.
  induction ls as [|l ls IH]; cbn [libc_base]; [discriminate|].
  destruct (is_prefix (str "libc") _ && _) eqn:C.
  - intros H. apply some_inj in H. subst a. apply andb_prop in C as [C1 C2].
    exists [], l, ls. split; [reflexivity|]. split; [reflexivity|]. split; [exact C2|].
    split; [|intros m x []]. apply is_prefix_spec. destruct (get_object_type rd l); try exact C1.
    vm_compute in C1. discriminate.
  - intros H. destruct (IH H) as (p & m & r & -> & E1 & E2 & E3 & E4).
    exists (l :: p), m, r. split; [reflexivity|]. split; [exact E1|]. split; [exact E2|]. split; [exact E3|].
    intros n x [<-|I] X T; [|apply E4; assumption]. intros Q.
    assert (Y : is_prefix (str "libc") (basename (line_name l)) = true) by (apply is_prefix_spec; eauto).
    destruct (get_object_type rd l); try congruence; rewrite Y, X in C; discriminate.
Qed.
Print Assumptions C79_scratch_is_executable.

(** It need not be in the C library. *)
Theorem C79_other_library_refuted : exists rd ls a l, libc_base rd ls = Some a /\ In l ls /\
  line_name l = str "libc.so.6" /\ Z.testbit (l_prot l) 2 = true /\
  forall m, In m ls -> l_start m = a -> line_name m <> str "libc.so.6".
Proof.
  exists rd0, [line 4096 5 7 "/lib/libcrypto.so.1"; line 12288 5 9 "/lib/libc.so.6"], 4096,
    (line 12288 5 9 "/lib/libc.so.6").
  split; [vm_compute; reflexivity|]. split; [right; left; reflexivity|].
  split; [vm_compute; reflexivity|]. split; [reflexivity|].
  intros m [<-|[<-|[]]] E; [vm_compute; discriminate|discriminate].
Qed.
Print Assumptions C79_other_library_refuted.
Example C79_example : libc_base rd0 maps0 = Some 12288.
Proof. vm_compute. reflexivity. Qed.
