From Coq Require Import String.
From Verif Require Import Base BaseProofs StorageModel TextModel LoptModel LoptProofs PkarcModel PkarcSpec PkarcProofs.
Open Scope list_scope.

Section Restored.
Variables pd br name : text.
Variable work : disk -> option disk.
Let ORIGINAL := pd ++ str "/root.original".
Let PATCHED := pd ++ str "/root.patched".
Let ARCHIVE := pd ++ str "/" ++ name.
Lemma pd_full : full pd -> full (pd ++ str "/root.original").
Proof. intros F. apply (inside_full pd); [exact F|]. right. exists (str "root.original"). reflexivity. Qed.
Lemma packed k k1 : full br -> full pd -> pack_prebuilt pd br name k = Some k1 ->
  files k1 = files k /\ exists ms, look (archives k1) ARCHIVE = Some ms /\
    map extracted ms = filter (fun e => under br (fst e)) (files k1) ++ filter (fun e => under ORIGINAL (fst e)) (files k1).
Proof.
  intros FB FP H. unfold pack_prebuilt in H. fold ORIGINAL in H. unfold root_original in H. fold ORIGINAL in H.
  remember (filter (fun e => under br (fst e)) (files k)) as b eqn:B. remember (filter (fun e => under ORIGINAL (fst e)) (files k)) as o eqn:O.
  assert (E : Some {| files := files k; archives := (archive_name pd name, map member (b ++ o)) :: archives k |} = Some k1)
    by (destruct b; [discriminate|destruct o; [discriminate|exact H]]).
  apply some_inj in E. subst k1. cbn [files archives]. split; [reflexivity|]. exists (map member (b ++ o)). split.
  - cbn [look]. assert (T : list_eqb (archive_name pd name) ARCHIVE = true) by (apply list_eqb_eq; reflexivity). rewrite T. reflexivity.
  - rewrite <- B, <- O. apply there_and_back. intros e I. apply in_app_or in I. destruct I as [I|I].
    + rewrite B in I. apply filter_In in I. destruct I as [_ I]. apply under_inside in I. exact (inside_full _ _ FB I).
    + rewrite O in I. apply filter_In in I. destruct I as [_ I]. apply under_inside in I. exact (inside_full _ _ (pd_full FP) I).
Qed.

(** Building and testing find the build root and root.original exactly as the first stage left them, whatever has been done to the
    disk since, if the archive is still there.  Nothing is left in root.patched, and nothing else is changed. *)
Theorem C151_restored k k1 k2 : full br -> full pd ->
  ~ inside br ARCHIVE -> ~ inside ORIGINAL ARCHIVE -> ~ inside PATCHED ARCHIVE ->
  prebuild_stage pd br name work k = Some k1 ->
  same_at (archives k1) (archives k2) ARCHIVE ->
  exists k3, later_stage pd br name k2 = Some k3 /\
    (forall p, inside br p \/ inside ORIGINAL p -> same_at (files k1) (files k3) p) /\
    (forall p, inside PATCHED p -> ~ inside br p -> ~ inside ORIGINAL p -> missing (files k3) p) /\
    (forall p, ~ inside br p -> ~ inside ORIGINAL p -> ~ inside PATCHED p -> same_at (files k2) (files k3) p) /\
    same_at (archives k2) (archives k3) ARCHIVE.
Proof.
  intros FB FP NB NO NP H S. unfold prebuild_stage in H. destruct (work _) as [k'|]; [|discriminate].
  apply (packed _ _ FB FP) in H. destruct H as (E & ms & L & M). apply same_look in S. rewrite L in S.
  assert (G : existsb (fun d => under d ARCHIVE) [br; root_original pd; root_patched pd] = false).
  { cbn [existsb]. fold ORIGINAL PATCHED. rewrite orb_false_r.
    destruct (under br ARCHIVE) eqn:U1; [exfalso; apply NB, under_inside, U1|].
    unfold root_original, root_patched. fold ORIGINAL PATCHED.
    destruct (under ORIGINAL ARCHIVE) eqn:U2; [exfalso; apply NO, under_inside, U2|].
    destruct (under PATCHED ARCHIVE) eqn:U3; [exfalso; apply NP, under_inside, U3|]. reflexivity. }
  unfold later_stage, unpack_prebuilt, clean_dirs, rm_rf. cbn [files archives].
  rewrite look_kept. change (archive_name pd name) with ARCHIVE. rewrite G, <- S. eexists. split; [reflexivity|]. cbn [files archives].
  assert (W : forall p, look (map extracted ms) p = if under br p || under ORIGINAL p then look (files k1) p else None).
  { intros p. rewrite M, look_app, !(look_filter (fun q => under _ q)).
    destruct (under br p); cbn [orb]; [destruct (look (files k1) p); [reflexivity|destruct (under ORIGINAL p); reflexivity]|]. reflexivity. }
  assert (K : forall p, look (map extracted ms ++ kept [br; root_original pd; root_patched pd] (files k2)) p =
    if under br p || under ORIGINAL p then look (files k1) p else if under PATCHED p then None else look (files k2) p).
  { intros p. rewrite look_app, W, look_kept. cbn [existsb]. rewrite orb_false_r. change (root_original pd) with ORIGINAL. change (root_patched pd) with PATCHED.
    destruct (under br p); cbn [orb]; [destruct (look (files k1) p); reflexivity|].
    destruct (under ORIGINAL p); cbn [orb]; [destruct (look (files k1) p); reflexivity|]. destruct (under PATCHED p); reflexivity. }
  split; [|split; [|split]].
  - intros p I. apply same_look. rewrite K. destruct I as [I|I]; apply under_inside in I; rewrite I, ?orb_true_r; reflexivity.
  - intros p I J J'. apply missing_look. rewrite K. apply under_inside in I. rewrite I.
    destruct (under br p) eqn:U; [exfalso; apply J, under_inside, U|]. destruct (under ORIGINAL p) eqn:U'; [exfalso; apply J', under_inside, U'|]. reflexivity.
  - intros p J J' J''. apply same_look. rewrite K.
    destruct (under br p) eqn:U; [exfalso; apply J, under_inside, U|]. destruct (under ORIGINAL p) eqn:U'; [exfalso; apply J', under_inside, U'|].
    destruct (under PATCHED p) eqn:U''; [exfalso; apply J'', under_inside, U''|]. reflexivity.
  - apply same_look. rewrite look_kept, G. reflexivity.
Qed.
End Restored.
Print Assumptions C151_restored.

(** The first stage removes the three trees before its work, and keeps what the work made: it fails exactly if the work does, or if the work
    leaves no file in the build root or in root.original (no original package was installed). *)
Theorem C151_packed pd br name work k :
  (exists k1, prebuild_stage pd br name work k = Some k1) <->
  exists kc k', work kc = Some k' /\
    (forall p, inside br p \/ inside (pd ++ str "/root.original") p \/ inside (pd ++ str "/root.patched") p -> missing (files kc) p) /\
    (forall p, ~ inside br p -> ~ inside (pd ++ str "/root.original") p -> ~ inside (pd ++ str "/root.patched") p -> same_at (files k) (files kc) p) /\
    kc = clean_dirs pd br k /\
    (exists p c, inside br p /\ In (p, c) (files k')) /\ (exists p c, inside (pd ++ str "/root.original") p /\ In (p, c) (files k')).
Proof.
  assert (W : forall d (l : tree), (exists p c, inside d p /\ In (p, c) l) <-> filter (fun e => under d (fst e)) l <> []).
  { intros d l. split.
    - intros (p & c & I & J) N. assert (X : In (p, c) (filter (fun e => under d (fst e)) l)) by (apply filter_In; split; [exact J|apply under_inside, I]). rewrite N in X. exact X.
    - intros N. destruct (filter _ l) as [|[p c] r] eqn:F; [exfalso; apply N; reflexivity|]. exists p, c.
      assert (X : In (p, c) (filter (fun e => under d (fst e)) l)) by (rewrite F; left; reflexivity). apply filter_In in X. destruct X as [X Y]. split; [apply under_inside, Y|exact X]. }
  unfold prebuild_stage. split.
  - intros (k1 & H). exists (clean_dirs pd br k). destruct (work (clean_dirs pd br k)) as [k'|] eqn:E; [|discriminate]. exists k'. split; [reflexivity|].
    assert (L : forall p, look (files (clean_dirs pd br k)) p = if existsb (fun d => under d p) [br; pd ++ str "/root.original"; pd ++ str "/root.patched"] then None else look (files k) p)
      by (intros p; apply look_kept).
    split; [|split; [|split; [reflexivity|]]].
    + intros p I. apply missing_look. rewrite L. cbn [existsb]. destruct I as [I|[I|I]]; apply under_inside in I; rewrite I, ?orb_true_r; reflexivity.
    + intros p J J' J''. apply same_look. rewrite L. cbn [existsb]. rewrite orb_false_r.
      destruct (under br p) eqn:U; [exfalso; apply J, under_inside, U|].
      destruct (under (pd ++ str "/root.original") p) eqn:U'; [exfalso; apply J', under_inside, U'|].
      destruct (under (pd ++ str "/root.patched") p) eqn:U''; [exfalso; apply J'', under_inside, U''|]. reflexivity.
    + unfold pack_prebuilt in H. rewrite !W. unfold root_original in H. split; intros N; rewrite N in H; [discriminate|].
      destruct (filter _ _) in H; discriminate.
  - intros (kc & k' & E & _ & _ & -> & B & O). rewrite E. apply W in B. apply W in O. unfold pack_prebuilt, root_original.
    destruct (filter _ (files k')) as [|x b]; [exfalso; apply B; reflexivity|]. destruct (filter (fun e => under (pd ++ str "/root.original") (fst e)) (files k')); [exfalso; apply O; reflexivity|].
    eexists. reflexivity.
Qed.
Print Assumptions C151_packed.

(** The packages that are installed as the original: those no part of whose name fits KP_PROJECT_SOURCE, each as often and in the order listed.
    The source itself never is. *)
Theorem C151_originals source ls : source <> [] ->
  (forall n, In n (installed source ls) <-> In n ls /\ ~ part_fits source n) /\ ~ In source (installed source ls) /\
  (forall a n m b, ls = a ++ n :: b -> In m b -> ~ part_fits source n -> ~ part_fits source m ->
     exists a' b', installed source ls = a' ++ n :: b' /\ In m b').
Proof.
  intros N. assert (F : installed source ls = filter (fun n => negb (grep source n)) ls) by (unfold installed; destruct source; [exfalso; apply N; reflexivity|reflexivity]).
  assert (G : forall n, negb (grep source n) = true <-> ~ part_fits source n).
  { intros n. rewrite <- grep_fits. destruct (grep source n); cbn; split; intros H; try congruence; try (exfalso; apply H; reflexivity). }
  rewrite F. split; [|split].
  - intros n. rewrite filter_In, G. reflexivity.
  - intros I. apply filter_In in I. destruct I as [_ I]. apply G in I. apply I. exists [], source, []. split; [rewrite app_nil_r; reflexivity|].
    unfold fits. clear. induction source; constructor; [right; reflexivity|assumption].
  - intros a n m b -> I Hn Hm. rewrite filter_app. cbn [filter]. rewrite (proj2 (G n) Hn). eexists _, _. split; [reflexivity|].
    apply filter_In. split; [exact I|apply G, Hm].
Qed.
Print Assumptions C151_originals.

(** A case: two packages and a source, built, packed; then the trees are spoilt by a build and come back *)
Definition PD := str "/kp/qemu". Definition BR := str "/root/build". Definition AR := str "prebuilt.tgz".
Definition OLD : disk := {| files := [(str "/root/build/x.o", str "old"); (str "/kp/qemu/info", str "i")]; archives := [] |}.
Definition WORK (k : disk) : option disk :=
  Some {| files := (str "/root/build/a.o", str "made") :: (str "/kp/qemu/root.original/bin/q", str "q") :: files k; archives := archives k |}.
Definition AFTER : disk := {| files := files {| files := (str "/root/build/a.o", str "made") :: (str "/kp/qemu/root.original/bin/q", str "q") :: [(str "/kp/qemu/info", str "i")]; archives := [] |};
  archives := [(str "/kp/qemu/prebuilt.tgz", [(str "root/build/a.o", str "made"); (str "kp/qemu/root.original/bin/q", str "q")])] |}.
Definition SPOILT : disk := {| files := (str "/root/build/a.o", str "patched") :: (str "/root/build/new.o", str "n") :: (str "/kp/qemu/root.patched/q", str "p") :: files AFTER; archives := archives AFTER |}.
Example C151_case : prebuild_stage PD BR AR WORK OLD = Some AFTER /\
  (exists k3, later_stage PD BR AR SPOILT = Some k3 /\ found (files k3) (str "/root/build/a.o") (str "made") /\ missing (files k3) (str "/root/build/new.o") /\
     found (files k3) (str "/kp/qemu/info") (str "i")) /\
  full BR /\ full PD /\ ~ inside BR (PD ++ str "/" ++ AR) /\ ~ inside (PD ++ str "/root.original") (PD ++ str "/" ++ AR) /\ ~ inside (PD ++ str "/root.patched") (PD ++ str "/" ++ AR).
Proof.
  split; [vm_compute; reflexivity|]. split.
  - eexists. split; [vm_compute; reflexivity|]. split; [apply look_found; vm_compute; reflexivity|]. split; [apply missing_look; vm_compute; reflexivity|apply look_found; vm_compute; reflexivity].
  - split; [eexists _, _; split; [reflexivity|discriminate]|]. split; [eexists _, _; split; [reflexivity|discriminate]|].
    split; [|split]; intros I; apply under_inside in I; vm_compute in I; discriminate I.
Qed.
Example C151_originals_case : installed (str "qemu.src.rpm") [str "qemu.rpm"; str "qemu.src.rpm"; str "tools.rpm"] = [str "qemu.rpm"; str "tools.rpm"].
Proof. vm_compute. reflexivity. Qed.

(** The archive holds full names.  If DIR is moved after the first stage, and the archive with it, what is unpacked lies where DIR was: the stage goes on,
    root.original of DIR stays empty, and a file that is now in the old place is overwritten. *)
Theorem C151_moved_refuted : exists pd pd' br name work k k1 k2 k3 ms, full pd /\ full pd' /\ full br /\
  prebuild_stage pd br name work k = Some k1 /\ found (archives k1) (pd ++ str "/" ++ name) ms /\ found (archives k2) (pd' ++ str "/" ++ name) ms /\
  later_stage pd' br name k2 = Some k3 /\
  (exists p c, found (files k1) (pd ++ str "/root.original/" ++ p) c /\ missing (files k3) (pd' ++ str "/root.original/" ++ p) /\
     found (files k3) (pd ++ str "/root.original/" ++ p) c /\ exists c', c' <> c /\ found (files k2) (pd ++ str "/root.original/" ++ p) c').
Proof.
  exists PD, (str "/kp/moved"), BR, AR, WORK, OLD, AFTER,
    {| files := [(str "/kp/qemu/root.original/bin/q", str "another"); (str "/kp/moved/info", str "i")];
       archives := [(str "/kp/moved/prebuilt.tgz", [(str "root/build/a.o", str "made"); (str "kp/qemu/root.original/bin/q", str "q")])] |}.
  eexists _, _. split; [eexists _, _; split; [reflexivity|discriminate]|]. split; [eexists _, _; split; [reflexivity|discriminate]|]. split; [eexists _, _; split; [reflexivity|discriminate]|].
  split; [vm_compute; reflexivity|]. split; [apply look_found; vm_compute; reflexivity|]. split; [apply look_found; vm_compute; reflexivity|]. split; [vm_compute; reflexivity|].
  exists (str "bin/q"), (str "q"). split; [apply look_found; vm_compute; reflexivity|]. split; [apply missing_look; vm_compute; reflexivity|]. split; [apply look_found; vm_compute; reflexivity|].
  exists (str "another"). split; [vm_compute; discriminate|apply look_found; vm_compute; reflexivity].
Qed.
Print Assumptions C151_moved_refuted.

(** If DIR lies in the build root, the first stage succeeds, and the next removes the archive before it looks for it, with all of DIR *)
Theorem C151_inside_refuted : exists pd br name work k k1, full pd /\ full br /\ inside br pd /\ prebuild_stage pd br name work k = Some k1 /\
  (exists ms, found (archives k1) (pd ++ str "/" ++ name) ms) /\ later_stage pd br name k1 = None /\
  found (files k1) (pd ++ str "/fix.patch") (str "p") /\ missing (files (clean_dirs pd br k1)) (pd ++ str "/fix.patch").
Proof.
  exists (str "/kp/qemu"), (str "/kp"), AR,
    (fun k => Some {| files := (str "/kp/qemu/fix.patch", str "p") :: (str "/kp/qemu/root.original/q", str "q") :: files k; archives := archives k |}), OLD.
  eexists. split; [eexists _, _; split; [reflexivity|discriminate]|]. split; [eexists _, _; split; [reflexivity|discriminate]|]. split; [right; exists (str "qemu"); reflexivity|].
  split; [vm_compute; reflexivity|]. split; [eexists; apply look_found; vm_compute; reflexivity|]. split; [vm_compute; reflexivity|].
  split; [apply look_found; vm_compute; reflexivity|apply missing_look; vm_compute; reflexivity].
Qed.
Print Assumptions C151_inside_refuted.

(** A package whose name has the name of the source in it, or something a dot of it fits, is not installed; with no KP_PROJECT_SOURCE none is *)
Theorem C151_similar_refuted : exists source ls n n', n <> source /\ n' <> source /\ In n ls /\ In n' ls /\ (exists a b, n = a ++ source ++ b) /\ (forall a b, n' <> a ++ source ++ b) /\
  ~ In n (installed source ls) /\ ~ In n' (installed source ls).
Proof.
  exists (str "gd-2.rpm"), [str "gd-2.rpm"; str "libgd-2.rpm"; str "gd-2-rpm.rpm"], (str "libgd-2.rpm"), (str "gd-2-rpm.rpm").
  split; [discriminate|]. split; [discriminate|]. split; [right; left; reflexivity|]. split; [right; right; left; reflexivity|]. split; [exists (str "lib"), []; reflexivity|].
  split; [|split; vm_compute; tauto].
  intros a b H. assert (C : contains (str "gd-2.rpm") (str "gd-2-rpm.rpm") = true) by (apply contains_spec; exists a, b; exact H). vm_compute in C. discriminate.
Qed.
Print Assumptions C151_similar_refuted.
Theorem C151_no_source_refuted : exists ls n, In n ls /\ n <> [] /\ ~ In n (installed [] ls).
Proof. exists [str "qemu.rpm"], (str "qemu.rpm"). split; [left; reflexivity|]. split; [discriminate|]. intros []. Qed.
Print Assumptions C151_no_source_refuted.
