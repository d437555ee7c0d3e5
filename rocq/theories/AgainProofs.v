(** A patch applied by one run of the tool, as a later run finds it. *)
From Coq Require Import String.
From Verif Require Import Base BaseProofs RemoteModel JumpModel EngineModel EngineSpec EngineFinal.
From Verif Require StorageModel ProcModel ProcSpec ProcProofs ProcSelect ProcInfo ProcMaps.
Open Scope list_scope.

(** What is left of an object in the list while lines are added. *)
Definition keeps (o o' : ProcModel.pobj) : Prop :=
  ProcModel.po_patch o' = ProcModel.po_patch o /\ ProcModel.po_hdr o' = ProcModel.po_hdr o /\
  exists r, ProcModel.po_vmas o' = ProcModel.po_vmas o ++ r.
Lemma keeps_refl o : keeps o o.
Proof. repeat split. exists []. now rewrite app_nil_r. Qed.
Lemma keeps_trans a b c : keeps a b -> keeps b c -> keeps a c.
Proof.
  intros (A1 & A2 & r1 & A3) (B1 & B2 & r2 & B3). repeat split; try congruence.
  exists (r1 ++ r2). rewrite B3, A3. now rewrite app_assoc.
Qed.

Lemma add_keeps rd ok bids os l os' j o : ProcModel.add_object_vma rd ok bids os l = ProcModel.POk os' ->
  nth_error os j = Some o -> exists o', nth_error os' j = Some o' /\ keeps o o'.
Proof.
  intros E N. assert (Lj : (j < length os)%nat) by (apply nth_error_Some; congruence).
  assert (App : forall x, exists o', nth_error (os ++ [x]) j = Some o' /\ keeps o o').
  { intro x. exists o. split; [now rewrite nth_error_app1|apply keeps_refl]. }
  assert (Upd : forall i oi v, nth_error os i = Some oi ->
    exists o', nth_error (ProcModel.upd os i (ProcModel.add_vm_area oi v)) j = Some o' /\ keeps o o').
  { intros i oi v Ni. destruct (Nat.eq_dec i j) as [->|D].
    - rewrite (ProcProofs.upd_same os j _ oi Ni). rewrite Ni in N. injection N as ->. eexists. split; [reflexivity|].
      unfold ProcModel.add_vm_area. destruct (existsb _ _); [apply keeps_refl|]. repeat split. now exists [v].
    - rewrite ProcProofs.upd_other by exact D. exists o. split; [exact N|apply keeps_refl]. }
  unfold ProcModel.add_object_vma in E. cbv zeta in E. destruct (ProcModel.get_object_type rd l).
  - destruct (ProcModel.last_index _ os) as [i|]; [|injection E as <-; apply App].
    destruct (nth_error os i) as [oi|] eqn:Ni; [|discriminate]. injection E as <-. now apply Upd.
  - destruct (ProcModel.last_index _ os) as [i|].
    + destruct (nth_error os i) as [oi|] eqn:Ni; [|discriminate]. injection E as <-. now apply Upd.
    + destruct (ok _); [|discriminate]. injection E as <-. apply App.
  - destruct (ProcModel.name_fits _ _); [|discriminate]. injection E as <-. apply App.
Qed.
Lemma parse_keeps rd ok bids ls : forall os os' j o, ProcModel.parse_maps rd ok bids os ls = ProcModel.POk os' ->
  nth_error os j = Some o -> exists o', nth_error os' j = Some o' /\ keeps o o'.
Proof.
  induction ls as [|l ls IH]; intros os os' j o E N; cbn [ProcModel.parse_maps] in E.
  - injection E as <-. exists o. split; [exact N|apply keeps_refl].
  - destruct (ProcModel.add_object_vma rd ok bids os l) as [os1| |] eqn:A; try discriminate.
    destruct (add_keeps _ _ _ _ _ _ _ _ A N) as (o1 & N1 & K1). destruct (IH _ _ _ _ E N1) as (o2 & N2 & K2).
    exists o2. split; [exact N2|]. exact (keeps_trans _ _ _ K1 K2).
Qed.

(** A line that holds a patch makes an object of it. *)
Lemma parse_patch rd ok bids ls : forall os os' l buf, ProcModel.parse_maps rd ok bids os ls = ProcModel.POk os' ->
  In l ls -> ProcModel.get_object_type rd l = ProcModel.TKpatch -> rd (ProcModel.l_start l) = Some buf ->
  exists j q r, nth_error os' j = Some q /\ ProcModel.po_patch q = true /\ ProcModel.po_hdr q = Some buf /\
    ProcModel.po_vmas q = ProcModel.line_vma l :: r.
Proof.
  induction ls as [|x ls IH]; intros os os' l buf E I T R; [easy|]. cbn [ProcModel.parse_maps] in E.
  destruct (ProcModel.add_object_vma rd ok bids os x) as [os1| |] eqn:A; try discriminate.
  destruct I as [->|I]; [|exact (IH _ _ _ _ E I T R)].
  unfold ProcModel.add_object_vma in A. cbv zeta in A. rewrite T, R in A.
  destruct (ProcModel.name_fits l buf); [|discriminate]. injection A as <-.
  match type of E with ProcModel.parse_maps _ _ _ (os ++ [?q]) _ = _ =>
    assert (N : nth_error (os ++ [q]) (length os) = Some q) by (rewrite nth_error_app2, Nat.sub_diag by lia; reflexivity) end.
  destruct (parse_keeps _ _ _ _ _ _ _ _ E N) as (o' & N' & K1 & K2 & r & K3).
  exists (length os), o', r. now repeat split.
Qed.

(** Strings in buffers *)
Lemma cstr_upto bs s : cstr bs = Some s -> StorageModel.upto_nul bs = s.
Proof.
  revert s. induction bs as [|b r IH]; intros s E; [discriminate|]. cbn [cstr StorageModel.upto_nul] in *.
  destruct (b =? 0); [now injection E as <-|]. destruct (cstr r) as [t|]; [|discriminate]. injection E as <-. f_equal. now apply IH.
Qed.
Lemma str_same_eq a x : str_same a (Some x) = true -> a = Some x.
Proof. destruct a as [y|]; [|discriminate]. cbn. intro E. apply list_eqb_eq in E. now subst. Qed.

(** The object a later run cancels the patch [a] of: nothing but what was found. *)
Definition later_obj (hs : list (list Z)) (a : ProcModel.uact) : obj :=
  {| o_patch := None; o_is_patch := false; o_applied := hs; o_hdr := ProcModel.ua_hdr a; o_info := None;
     o_kpta := ProcModel.ua_kpta a; o_find := fun _ => 0 |}.

(** How cancelling depends on the list of patches that are applied: only by whether the
    patch is among them. *)
Lemma unapply_hs A pg fuel h kpta hs hs' s r o2 s2 :
  applied_by_id {| o_patch := None; o_is_patch := false; o_applied := hs'; o_hdr := Some h; o_info := None; o_kpta := kpta; o_find := fun _ => 0 |} (hdr_str h h_id) = true ->
  object_unapply_patch A pg fuel false {| o_patch := None; o_is_patch := false; o_applied := hs; o_hdr := Some h; o_info := None; o_kpta := kpta; o_find := fun _ => 0 |} s = (Ret r, o2, s2) ->
  exists o3, object_unapply_patch A pg fuel false {| o_patch := None; o_is_patch := false; o_applied := hs'; o_hdr := Some h; o_info := None; o_kpta := kpta; o_find := fun _ => 0 |} s = (Ret r, o3, s2).
Proof.
  intros H E. unfold object_unapply_patch, object_unapply_patch_with, find_applied_info, obind, oget in *. cbn [o_info o_hdr o_kpta] in *.
  rewrite H. cbn [negb].
  destruct (applied_by_id _ _) in E; [cbn [negb] in E|discriminate E].
  unfold lift, oput in *. destruct (read_infos _ _ _ _ _ _) as [[l| | | |] s1]; try discriminate E.
  cbn [with_info o_info o_hdr o_kpta] in *. destruct (choice s1) as [[u| | | |] s3]; try discriminate E.
  destruct (restore_hunks _ _ _ _ _ _) as [[v| | | |] s4]; try discriminate E.
  destruct (munmap_remote _ _ _ _) as [[w| | | |] s5]; try discriminate E.
  unfold oret in *. injection E as <- _ <-. eexists. reflexivity.
Qed.
