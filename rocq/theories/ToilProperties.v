(** C148, C149: building patches as a workflow, scripts/toil/pkgbuild.py. *)
From Coq Require Import String.
From Verif Require Import Base BaseProofs StorageModel TextModel LoptModel LoptProofs ToilModel ToilSpec ToilProofs.
Open Scope list_scope.

(** * C148: the inputs *)
(** If every entry is understood and no two have the same name, what the scripts find under a name is exactly what the entry
    of that name stands for *)
Theorem C148_inputs abspath fs accepts web cwd root ws st :
  directory_name root -> Forall (understood abspath root) ws -> NoDup (map w_name ws) ->
  gather abspath fs accepts web cwd root (map w_info ws) = Some st -> forall n e, st n = Some e <-> provided fs web ws n e.
Proof.
  intros R F D H. pose proof (gather_spec abspath fs accepts web root R cwd ws F D) as S. rewrite H in S. exact (proj2 S).
Qed.
Print Assumptions C148_inputs.
(** The work stops before any script exactly if an input stands in its way *)
Theorem C148_stops abspath fs accepts web cwd root ws :
  directory_name root -> Forall (understood abspath root) ws -> NoDup (map w_name ws) ->
  (gather abspath fs accepts web cwd root (map w_info ws) = None <-> exists w, In w ws /\ ~ no_obstacle fs accepts web w).
Proof.
  intros R F D. pose proof (gather_spec abspath fs accepts web root R cwd ws F D) as S.
  destruct (gather abspath fs accepts web cwd root (map w_info ws)) as [st|].
  - split; [discriminate|]. intros (w & I & N). destruct S as [S _]. rewrite Forall_forall in S. exfalso. exact (N (S w I)).
  - split; [intros _|reflexivity]. clear F D.
    assert (X : forall w, no_obstacle fs accepts web w \/ ~ no_obstacle fs accepts web w).
    { intros w. unfold no_obstacle. destruct (w_from w) as [p|u].
      - destruct (fs p) as [| |c]; [left; split; [discriminate|intros c; discriminate]|right; intros [Q _]; exact (Q eq_refl)|].
        destruct (accepts (w_name w)) eqn:A; [left; split; [discriminate|intros x _; reflexivity]|right; intros [_ Q]; specialize (Q c eq_refl); discriminate].
      - destruct (web u) as [c|]; [left; intros _; discriminate|]. destruct (w_must w); [right; intros Q; exact (Q eq_refl eq_refl)|left; discriminate]. }
    induction ws as [|w ws IH]; [exfalso; apply S; constructor|]. destruct (X w) as [Y|Y]; [|exists w; split; [left; reflexivity|exact Y]].
    destruct IH as (v & I & N); [intros Q; apply S; constructor; assumption|]. exists v. split; [right; exact I|exact N].
Qed.
Print Assumptions C148_stops.

(** A world to try it in: paths are taken from /w; "/./" is the only thing abspath has to do away with *)
Fixpoint squeeze (k : nat) (s : text) : text :=
  match s with [] => [] | c :: r => match k with S k' => squeeze k' r | O => if begins (str "/./") s then squeeze 1 r else c :: squeeze 0 r end end.
Definition abs (p : text) : text := squeeze 0 (if begins (str "/") p then p else str "/w/" ++ p).
Definition one_file (q c : string) (p : text) : file := if list_eqb p (str q) then There (str c) else Absent.
Definition one_url (q c : string) (u : text) : option text := if list_eqb u (str q) then Some (str c) else None.
Definition anyname (_ : text) : bool := true.
Lemma root_ok : directory_name (str "/d").
Proof. exists (str "/"), 100. split; [reflexivity|unfold SLASH; discriminate]. Qed.
Lemma no_occ p s : contains p s = false -> ~ occurs p s.
Proof. intros C O. pose proof (proj2 (contains_spec p s) O) as E. rewrite C in E. discriminate. Qed.
Lemma no_sl s : existsb (Z.eqb 47) s = false -> ~ In SLASH s.
Proof. intros C O. apply slash_in in O. rewrite C in O. discriminate. Qed.
Definition wishes : list wish :=
  [Wish (Url (str "p.diff")) (str "p.diff") (Disk (str "/d/p.diff")) true;
   Wish (Url (str "http://h/a.rpm")) (str "a.rpm") (Net (str "http://h/a.rpm")) true;
   Wish (Named [(str "build", str "/x/b.sh")]) (str "build") (Disk (str "/x/b.sh")) true;
   Wish (Url (str "*s3://b/pre.tgz")) (str "pre.tgz") (Net (str "s3://b/pre.tgz")) false].
Example C148_wishes_understood : Forall (understood abs (str "/d")) wishes /\ NoDup (map w_name wishes).
Proof.
  split.
  - repeat constructor; unfold understood; cbn [w_info w_name w_from w_must].
    + exists (str "p.diff"). split.
      * apply S_url; [intros r; discriminate|split; [apply no_sl; reflexivity|left; reflexivity]].
      * apply (L_relative abs (str "/d") (str "p.diff")); [apply no_occ; reflexivity|discriminate|left; apply no_sl; reflexivity].
    + exists (str "http://h/a.rpm"). split.
      * apply S_url; [intros r; discriminate|split; [apply no_sl; reflexivity|right; exists (str "http://h"); reflexivity]].
      * apply L_net; [apply contains_spec; reflexivity|intros r; discriminate].
    + exists (str "/x/b.sh"). split; [apply S_named; intros r; discriminate|].
      apply (L_absolute abs (str "/d") (str "x/b.sh")). apply no_occ. reflexivity.
    + exists (str "s3://b/pre.tgz"). split.
      * apply (S_optional 0 (str "s3://b") (str "pre.tgz")); [intros r; discriminate|apply no_sl; reflexivity].
      * apply L_net; [apply contains_spec; reflexivity|intros r; discriminate].
  - repeat constructor; intros I; repeat (destruct I as [I|I]; [discriminate I|]); exact I.
Qed.
Example C148_wishes_gathered :
  match gather abs (one_file "/d/p.diff" "diff") anyname (one_url "http://h/a.rpm" "rpm") (str "/w") (str "/d") (map w_info wishes) with
  | Some st => map st (map w_name wishes) = [Some (Imported (str "diff")); Some (Stored (str "rpm")); None; None]
  | None => False
  end.
Proof. vm_compute. reflexivity. Qed.

(** A local file that must be there and is not: nothing is said, and the scripts are run without it *)
Theorem C148_missing_refuted : exists abspath fs accepts web cwd root w st,
  directory_name root /\ understood abspath root w /\ w_must w = true /\ (forall e, ~ provided fs web [w] (w_name w) e) /\ gather abspath fs accepts web cwd root [w_info w] = Some st.
Proof.
  pose (w := Wish (Url (str "p.diff")) (str "p.diff") (Disk (str "/d/p.diff")) true).
  exists abs, (fun _ => Absent), anyname, (fun _ => None), (str "/w"), (str "/d"), w, empty.
  split; [exact root_ok|]. split; [|split; [reflexivity|split; [|vm_compute; reflexivity]]].
  - exists (str "p.diff"). split.
    + apply S_url; [intros r; discriminate|split; [apply no_sl; reflexivity|left; reflexivity]].
    + apply (L_relative abs (str "/d") (str "p.diff")); [apply no_occ; reflexivity|discriminate|left; apply no_sl; reflexivity].
  - intros e (v & [<-|[]] & _ & c & H & _). discriminate H.
Qed.
Print Assumptions C148_missing_refuted.
(** A relative path with a slash is not taken from the directory of the description, although "./" before it makes it so *)
Theorem C148_relative_refuted : exists abspath fs accepts web cwd root p c st st',
  fs (root ++ [SLASH] ++ p) = There c /\ (forall q, p <> SLASH :: q) /\
  gather abspath fs accepts web cwd root [Named [(str "f", p)]] = Some st /\ st (str "f") = None /\
  gather abspath fs accepts web cwd root [Named [(str "f", str "./" ++ p)]] = Some st' /\ st' (str "f") = Some (Imported c).
Proof.
  exists abs, (one_file "/d/s/p.diff" "diff"), anyname, (fun _ => None), (str "/w"), (str "/d"), (str "s/p.diff"), (str "diff"), empty.
  eexists. split; [reflexivity|]. split; [intros q; discriminate|]. split; [vm_compute; reflexivity|]. split; [reflexivity|]. split; [vm_compute; reflexivity|]. vm_compute. reflexivity.
Qed.
Print Assumptions C148_relative_refuted.
(** The star of an optional file stays in its name if there is no slash behind it *)
Theorem C148_star_refuted : exists abspath fs accepts web cwd root n c st,
  ~ In SLASH n /\ unstarred n /\ fs (root ++ [SLASH] ++ n) = There c /\
  gather abspath fs accepts web cwd root [Url (STAR :: n)] = Some st /\ st n = None /\ st (STAR :: n) = Some (Imported c).
Proof.
  exists abs, (one_file "/d/pre.tgz" "tar"), anyname, (fun _ => None), (str "/w"), (str "/d"), (str "pre.tgz"), (str "tar").
  eexists. split; [apply no_sl; reflexivity|]. split; [intros r; discriminate|]. split; [reflexivity|]. split; [vm_compute; reflexivity|]. split; vm_compute; reflexivity.
Qed.
Print Assumptions C148_star_refuted.
(** Of two entries with one name the first counts if both are local, and the last if both are from the net *)
Theorem C148_twice_refuted : exists abspath fs accepts web cwd root n st st',
  gather abspath fs accepts web cwd root [Named [(n, str "/a")]; Named [(n, str "/b")]] = Some st /\ st n = Some (Imported (str "a")) /\
  gather abspath fs accepts web cwd root [Named [(n, str "ftp://a")]; Named [(n, str "ftp://b")]] = Some st' /\ st' n = Some (Stored (str "b")) /\
  fs (str "/a") = There (str "a") /\ fs (str "/b") = There (str "b") /\ web (str "ftp://a") = Some (str "a") /\ web (str "ftp://b") = Some (str "b").
Proof.
  exists abs, (fun p => if list_eqb p (str "/a") then There (str "a") else There (str "b")), anyname, (fun p => if list_eqb p (str "ftp://a") then Some (str "a") else Some (str "b")),
    (str "/w"), (str "/d"), (str "f").
  eexists. eexists. split; [vm_compute; reflexivity|]. split; [vm_compute; reflexivity|]. split; [vm_compute; reflexivity|]. repeat split; vm_compute; reflexivity.
Qed.
Print Assumptions C148_twice_refuted.

(** * C149: the scripts *)
(** Without the archive of the first stage all three scripts are run, each on what the ones before have left *)
Theorem C149_from_source abspath script pu bu pre b st D : bucket pu pre -> bucket bu b -> st pre = None ->
  do_build abspath script pu bu st = Some D ->
  d_ran D = [Prebuild; Build; Test] /\
  exists s1 s2, worked script Prebuild st s1 /\ worked script Build s1 s2 /\ worked script Test s2 (d_storage D) /\
    d_uploads D = put_of pu pre s1 ++ put_of bu b s2.
Proof. apply do_first. Qed.
Print Assumptions C149_from_source.
(** With it, but without a patch, the patch is built and tested *)
Theorem C149_from_archive abspath script pu bu pre b st D e : bucket pu pre -> bucket bu b -> st pre = Some e -> st b = None ->
  do_build abspath script pu bu st = Some D ->
  d_ran D = [Build; Test] /\ exists s, worked script Build st s /\ worked script Test s (d_storage D) /\ d_uploads D = put_of bu b s.
Proof. apply do_second. Qed.
Print Assumptions C149_from_archive.
(** With both it is only tested, and nothing is uploaded *)
Theorem C149_only_test abspath script pu bu pre b st D e f : bucket pu pre -> bucket bu b -> st pre = Some e -> st b = Some f ->
  do_build abspath script pu bu st = Some D -> d_ran D = [Test] /\ d_uploads D = [] /\ worked script Test st (d_storage D).
Proof. apply do_third. Qed.
Print Assumptions C149_only_test.
(** If no script fails and the patch is not a local file, the run succeeds *)
Theorem C149_succeeds abspath script pu bu pre b st : (forall m v, script m v <> None) -> bucket pu pre -> bucket bu b ->
  (forall c, st b <> Some (Imported c)) -> exists D, do_build abspath script pu bu st = Some D.
Proof. apply do_succeeds. Qed.
Print Assumptions C149_succeeds.
(** Whatever the scripts do to the inputs, the test, which is the last, sees every input as it was fetched, and so does who looks at the end *)
Theorem C149_inputs_kept abspath script pu bu pre b st D n e : bucket pu pre -> bucket bu b ->
  do_build abspath script pu bu st = Some D -> st n = Some e ->
  d_storage D n = Some e /\ exists v d, ran script Test v d /\ v n = Some (content e).
Proof.
  intros P B H E. destruct (do_last _ _ _ _ _ _ _ _ P B H) as (s & K & W & _). specialize (K n e E). split; [exact (worked_keeps _ _ _ _ _ _ W K)|].
  destruct W as (v & d & T & S & _). exists v, d. split; [exact T|]. destruct (S n) as [Q|[Q _]]; [|congruence]. rewrite Q, K. destruct e; reflexivity.
Qed.
Print Assumptions C149_inputs_kept.
(** The patch that is uploaded is the one that was tested, and the one among the results *)
Theorem C149_tested abspath script pu bu pre b st D c : bucket pu pre -> bucket bu b -> pu <> bu ->
  do_build abspath script pu bu st = Some D -> In (bu, c) (d_uploads D) ->
  (exists v d, ran script Test v d /\ v b = Some c) /\ exported (d_storage D) b = Some c.
Proof.
  intros P B N H I. destruct (do_last _ _ _ _ _ _ _ _ P B H) as (s & _ & W & U). specialize (U c I N). split.
  - destruct W as (v & d & T & S & _). exists v, d. split; [exact T|]. destruct (S b) as [Q|[Q _]]; [|congruence]. rewrite Q, U. reflexivity.
  - unfold exported. rewrite (worked_keeps _ _ _ _ _ _ W U). reflexivity.
Qed.
Print Assumptions C149_tested.

(** Scripts to try it with: each leaves its directory with one more file *)
Definition with_file (n c : string) (v : directory) : directory := fun m => if list_eqb m (str n) then Some (str c) else v m.
Definition good (m : mode) (v : directory) : option directory :=
  match m with Prebuild => Some (with_file "pre.tgz" "tar" v) | Build => Some (with_file "k.tgz" "patch" v) | Test => Some v end.
Definition PU := str "s3://b/pre.tgz". Definition KU := str "s3://b/k.tgz".
Lemma buckets : bucket PU (str "pre.tgz") /\ bucket KU (str "k.tgz").
Proof.
  split; (split; [split; [apply no_sl; reflexivity|right; exists (str "s3://b"); reflexivity]|eexists; reflexivity]).
Qed.
Example C149_first_run : match do_build abs good PU KU empty with
  | Some D => d_ran D = [Prebuild; Build; Test] /\ d_uploads D = [(PU, str "tar"); (KU, str "patch")] /\ d_storage D (str "k.tgz") = Some (Stored (str "patch")) /\
              d_storage D (str "build.log") = Some (Stored [])
  | None => False end.
Proof. vm_compute. repeat split. Qed.
Example C149_second_run : match do_build abs good PU KU (sset (str "pre.tgz") (Stored (str "tar")) empty) with
  | Some D => d_ran D = [Build; Test] /\ d_uploads D = [(KU, str "patch")] | None => False end.
Proof. vm_compute. repeat split. Qed.
Example C149_third_run : match do_build abs good PU KU (sset (str "k.tgz") (Stored (str "patch")) (sset (str "pre.tgz") (Stored (str "tar")) empty)) with
  | Some D => d_ran D = [Test] /\ d_uploads D = [] | None => False end.
Proof. vm_compute. repeat split. Qed.

(** "Expose Storage to a directory and pick up changes from it": a change of a file that was there is not picked up *)
Theorem C149_changes_refuted : exists abspath script pu bu pre b st D n c c',
  bucket pu pre /\ bucket bu b /\ st n = Some (Stored c) /\ c' <> c /\
  (forall v, exists d, ran script Build v d /\ d n = Some c') /\
  do_build abspath script pu bu st = Some D /\ d_ran D = [Build; Test] /\ d_storage D n = Some (Stored c).
Proof.
  exists abs, (fun m v => match m with Build => Some (with_file "src.c" "new" v) | _ => good m v end), PU, KU, (str "pre.tgz"), (str "k.tgz"),
    (sset (str "src.c") (Stored (str "old")) (sset (str "pre.tgz") (Stored (str "tar")) empty)).
  eexists. exists (str "src.c"), (str "old"), (str "new"). split; [apply buckets|]. split; [apply buckets|]. split; [reflexivity|]. split; [discriminate|].
  split; [intros v; eexists; split; [reflexivity|reflexivity]|]. split; [reflexivity|]. split; vm_compute; reflexivity.
Qed.
Print Assumptions C149_changes_refuted.
(** A build that makes no patch is a success: nothing is uploaded, and the test is run without it *)
Theorem C149_no_patch_refuted : exists abspath script pu bu pre b st D,
  bucket pu pre /\ bucket bu b /\ do_build abspath script pu bu st = Some D /\ d_ran D = [Build; Test] /\ d_uploads D = [] /\ exported (d_storage D) b = None.
Proof.
  exists abs, (fun _ v => Some v), PU, KU, (str "pre.tgz"), (str "k.tgz"), (sset (str "pre.tgz") (Stored (str "tar")) empty). eexists.
  split; [apply buckets|]. split; [apply buckets|]. split; [reflexivity|]. repeat split; vm_compute; reflexivity.
Qed.
Print Assumptions C149_no_patch_refuted.
(** If the patch is there and the archive is not, a new patch is built and lost: the old one is tested and uploaded; and if
    the old one is a local file, the run fails *)
Theorem C149_old_patch_refuted : exists abspath script pu bu pre b st D c c',
  bucket pu pre /\ bucket bu b /\ st b = Some (Stored c) /\ c' <> c /\ (forall v, exists d, ran script Build v d /\ d b = Some c') /\
  do_build abspath script pu bu st = Some D /\ d_ran D = [Prebuild; Build; Test] /\ In (bu, c) (d_uploads D) /\ d_storage D b = Some (Stored c) /\
  do_build abspath script pu bu (sset b (Imported c) st) = None.
Proof.
  exists abs, good, PU, KU, (str "pre.tgz"), (str "k.tgz"), (sset (str "k.tgz") (Stored (str "old")) empty). eexists. exists (str "old"), (str "patch").
  split; [apply buckets|]. split; [apply buckets|]. split; [reflexivity|]. split; [discriminate|].
  split; [intros v; eexists; split; reflexivity|]. split; [reflexivity|]. split; [vm_compute; reflexivity|]. split; [vm_compute; right; left; reflexivity|]. split; vm_compute; reflexivity.
Qed.
Print Assumptions C149_old_patch_refuted.
(** An archive beside the description that is named without a slash is not found: it is built again *)
Theorem C149_local_archive_refuted : exists abspath fs accepts web script cwd root desc c D,
  fs (root ++ [SLASH] ++ ds_prebuild desc) = There c /\ ~ In SLASH (ds_prebuild desc) /\
  package abspath fs accepts web script cwd root desc = Some D /\ In Prebuild (d_ran D).
Proof.
  exists abs, (one_file "/d/pre.tgz" "tar"), anyname, (fun _ => None), good, (str "/w"), (str "/d"), (Desc [] None (str "pre.tgz") KU), (str "tar"). eexists.
  split; [reflexivity|]. split; [apply no_sl; reflexivity|]. split; [reflexivity|]. vm_compute. left. reflexivity.
Qed.
Print Assumptions C149_local_archive_refuted.
(** A patch in a file beside the description is put elsewhere than it is looked for: it is built in every run *)
Theorem C149_put_elsewhere_refuted : exists abspath fs accepts web script cwd root desc D D' p c,
  package abspath fs accepts web script cwd root desc = Some D /\ In (p, c) (d_uploads D) /\ In Build (d_ran D) /\
  package abspath (fun q => if list_eqb q p then There c else fs q) accepts web script cwd root desc = Some D' /\ In Build (d_ran D').
Proof.
  exists abs, (fun _ => Absent), anyname, (one_url "s3://b/pre.tgz" "tar"), good, (str "/w"), (str "/d"), (Desc [] None PU (str "./k.tgz")).
  eexists. eexists. exists (str "/w/k.tgz"), (str "patch"). split; [reflexivity|]. split; [vm_compute; left; reflexivity|]. split; [vm_compute; left; reflexivity|].
  split; [reflexivity|]. vm_compute. left. reflexivity.
Qed.
Print Assumptions C149_put_elsewhere_refuted.
(** If the description itself says that the archive may be missing, it can be made but not uploaded: the run fails *)
Theorem C149_starred_refuted : exists abspath fs accepts web script cwd root desc u,
  ds_prebuild desc = STAR :: u /\ bucket u (str "pre.tgz") /\ (forall m v, script m v <> None) /\
  package abspath fs accepts web script cwd root desc = None /\
  exists D, package abspath fs accepts web script cwd root (Desc (ds_input desc) (ds_script desc) u (ds_patch desc)) = Some D.
Proof.
  exists abs, (fun _ => Absent), anyname, (fun _ => None), good, (str "/w"), (str "/d"), (Desc [] None (STAR :: PU) KU), PU.
  split; [reflexivity|]. split; [apply buckets|]. split; [intros [] v; discriminate|]. split; [vm_compute; reflexivity|]. eexists. reflexivity.
Qed.
Print Assumptions C149_starred_refuted.
