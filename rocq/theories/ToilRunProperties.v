(** C149: the whole run of scripts/toil/pkgbuild.py, from the description of the package to the results. *)
From Coq Require Import String.
From Verif Require Import Base BaseProofs StorageModel TextModel LoptModel LoptProofs ToilModel ToilSpec ToilProofs ToilProperties.
Open Scope list_scope.

(** * The inputs every package has beside its own *)
Definition COLON := 58.
Definition in_dir (cwd : text) (p : string) : text := cwd ++ [SLASH] ++ str p.
(** The script: the one of the description, or the one beside pkgbuild.py *)
Definition script_lies (abspath : text -> text) (cwd root : text) (s : option text) (from : source) : Prop :=
  match s with
  | Some u => unstarred u /\ lies abspath root u from
  | None => from = Disk (abspath (in_dir cwd "./build-patch.sh"))
  end.
Definition script_info (cwd : text) (s : option text) : info := Named [(str "build", match s with Some u => u | None => in_dir cwd "./build-patch.sh" end)].
Definition own_wishes (abspath : text -> text) (cwd : text) (s : option text) (from : source) (pu pre bu b : text) : list wish :=
  [Wish (script_info cwd s) (str "build") from true;
   Wish (Named [(str "scripts", in_dir cwd "../../scripts")]) (str "scripts") (Disk (abspath (in_dir cwd "../../scripts"))) true;
   Wish (Named [(str "src", in_dir cwd "../../src/")]) (str "src") (Disk (abspath (in_dir cwd "../../src/"))) true;
   Wish (Named [(str "execve", in_dir cwd "../../tests/execve")]) (str "execve") (Disk (abspath (in_dir cwd "../../tests/execve"))) true;
   Wish (Url (STAR :: pu)) pre (Net pu) false;
   Wish (Url (STAR :: bu)) b (Net bu) false].

Lemma in_dir_join cwd p : directory_name cwd -> (forall q, str p <> SLASH :: q) -> join cwd (str p) = in_dir cwd p.
Proof. intros D N. apply join_dir; assumption. Qed.
Lemma in_dir_lies abspath root q p : ~ In COLON (SLASH :: q) -> ~ In COLON (str p) ->
  unstarred (in_dir (SLASH :: q) p) /\ lies abspath root (in_dir (SLASH :: q) p) (Disk (abspath (in_dir (SLASH :: q) p))).
Proof.
  intros N M. split; [intros r; discriminate|]. unfold in_dir. cbn [app]. apply L_absolute.
  intros (a & c & E). assert (I : In COLON (SLASH :: q ++ SLASH :: str p)).
  { rewrite E. apply in_or_app. right. left. reflexivity. }
  destruct I as [I|I]; [discriminate|]. apply in_app_or in I. destruct I as [I|[I|I]]; [apply N; right; exact I|discriminate|exact (M I)].
Qed.
Lemma bucket_says u n : bucket u n -> says (Url (STAR :: u)) n u false.
Proof.
  intros ((N & F) & r & E). destruct F as [->|(d & ->)].
  - exfalso. apply N. rewrite E. right. right. right. left. reflexivity.
  - apply (S_optional 0 d n); [|exact N]. intros q Q. rewrite Q in E. discriminate.
Qed.
Lemma bucket_lies abspath root u n : bucket u n -> lies abspath root u (Net u).
Proof. intros (_ & r & ->). apply L_net; [exists (str "s3"), r; reflexivity|intros q; discriminate]. Qed.
Lemma bucket_starred u n : bucket u n -> starred u = STAR :: u.
Proof. intros (_ & r & ->). reflexivity. Qed.

Section Run.
Variables (abspath : text -> text) (fs : text -> file) (accepts : text -> bool) (web : text -> option text)
  (script : mode -> directory -> option directory) (q root pre b : text) (d : description) (from : source) (ws : list wish).
Let cwd := SLASH :: q.
Let all := ws ++ own_wishes abspath cwd (ds_script d) from (ds_prebuild d) pre (ds_patch d) b.
Hypothesis Hroot : directory_name root.
Hypothesis Hcwd : directory_name cwd.
Hypothesis Hcolon : ~ In COLON cwd.
Hypothesis Hpre : bucket (ds_prebuild d) pre.
Hypothesis Hb : bucket (ds_patch d) b.
Hypothesis Hscript : script_lies abspath cwd root (ds_script d) from.
Hypothesis Hws : Forall (understood abspath root) ws.
Hypothesis Hin : ds_input d = map w_info ws.
Hypothesis Hnames : NoDup (map w_name all).

Lemma all_info : all_inputs cwd d = map w_info all.
Proof.
  unfold all_inputs, all, own_wishes. rewrite map_app, <- Hin. cbn [map w_info]. rewrite (bucket_starred _ _ Hpre), (bucket_starred _ _ Hb).
  rewrite (in_dir_join cwd "../../scripts" Hcwd), (in_dir_join cwd "../../src/" Hcwd), (in_dir_join cwd "../../tests/execve" Hcwd),
    (in_dir_join cwd "./build-patch.sh" Hcwd) by (intros x; discriminate). unfold script_info. reflexivity.
Qed.
Lemma not_colon s : existsb (Z.eqb COLON) s = false -> ~ In COLON s.
Proof. intros E I. assert (X : existsb (Z.eqb COLON) s = true) by (apply existsb_exists; exists COLON; split; [exact I|reflexivity]). congruence. Qed.
Lemma all_understood : Forall (understood abspath root) all.
Proof.
  apply Forall_app. split; [exact Hws|]. unfold own_wishes.
  assert (X : forall n p, existsb (Z.eqb COLON) (str p) = false ->
    understood abspath root (Wish (Named [(n, in_dir cwd p)]) n (Disk (abspath (in_dir cwd p))) true)).
  { intros n p E. destruct (in_dir_lies abspath root q p Hcolon (not_colon _ E)) as [U L]. exists (in_dir cwd p). split; [apply S_named, U|exact L]. }
  constructor; [|constructor; [|constructor; [|constructor; [|constructor; [|constructor; [|constructor]]]]]]; try (apply X; reflexivity).
  - unfold script_info, script_lies in *. destruct (ds_script d) as [u|].
    + destruct Hscript as [U L]. exists u. split; [apply S_named, U|exact L].
    + rewrite Hscript. apply X. reflexivity.
  - exists (ds_prebuild d). split; [exact (bucket_says _ _ Hpre)|exact (bucket_lies _ _ _ _ Hpre)].
  - exists (ds_patch d). split; [exact (bucket_says _ _ Hb)|exact (bucket_lies _ _ _ _ Hb)].
Qed.

(** What the first script finds under the two names *)
Lemma found_in_web st n u : gather abspath fs accepts web cwd root (all_inputs cwd d) = Some st ->
  In (Wish (Url (STAR :: u)) n (Net u) false) all -> st n = match web u with Some c => Some (Stored c) | None => None end.
Proof.
  intros H I. rewrite all_info in H. pose proof (gather_spec abspath fs accepts web root Hroot cwd all all_understood Hnames) as G. rewrite H in G.
  destruct G as [_ G]. assert (K : forall e, st n = Some e -> exists c, web u = Some c /\ e = Stored c).
  { intros e E. apply G in E. destruct E as (w & J & N & P). rewrite (name_unique all w _ Hnames J I N) in P. exact P. }
  destruct (web u) as [c|] eqn:W.
  - apply G. exists (Wish (Url (STAR :: u)) n (Net u) false). split; [exact I|]. split; [reflexivity|]. exists c. split; [exact W|reflexivity].
  - destruct (st n) as [e|]; [|reflexivity]. destruct (K e eq_refl) as (c & C & _). discriminate.
Qed.
Lemma pre_wished : In (Wish (Url (STAR :: ds_prebuild d)) pre (Net (ds_prebuild d)) false) all.
Proof. apply in_or_app. right. do 4 right. left. reflexivity. Qed.
Lemma b_wished : In (Wish (Url (STAR :: ds_patch d)) b (Net (ds_patch d)) false) all.
Proof. apply in_or_app. right. do 5 right. left. reflexivity. Qed.
End Run.

(** What is run depends only on what the bucket has: without the archive of the original build all three scripts, with it but
    without the patch the last two, with both only the test.  The scripts find the inputs under their names: those of the
    package and those every package has. *)
Theorem C149_run abspath fs accepts web script q root pre b d from ws D :
  let cwd := SLASH :: q in
  let all := ws ++ own_wishes abspath cwd (ds_script d) from (ds_prebuild d) pre (ds_patch d) b in
  directory_name root -> directory_name cwd -> ~ In COLON cwd ->
  bucket (ds_prebuild d) pre -> bucket (ds_patch d) b -> script_lies abspath cwd root (ds_script d) from ->
  Forall (understood abspath root) ws -> ds_input d = map w_info ws -> NoDup (map w_name all) ->
  package abspath fs accepts web script cwd root d = Some D ->
  d_ran D = match web (ds_prebuild d), web (ds_patch d) with
            | None, _ => [Prebuild; Build; Test] | Some _, None => [Build; Test] | Some _, Some _ => [Test] end /\
  (web (ds_prebuild d) <> None -> web (ds_patch d) <> None -> d_uploads D = []) /\
  exists st, (forall n e, st n = Some e <-> provided fs web all n e) /\
    forall n e, st n = Some e -> d_storage D n = Some e /\ exists v x, ran script Test v x /\ v n = Some (content e).
Proof.
  intros cwd all R C K P B S W I N H. unfold package in H.
  destruct (gather abspath fs accepts web cwd root (all_inputs cwd d)) as [st|] eqn:G; [|discriminate]. cbn [and_then] in H.
  pose proof (found_in_web abspath fs accepts web q root pre b d from ws R C K P B S W I N st pre _ G (pre_wished abspath q pre b d from ws)) as EP.
  pose proof (found_in_web abspath fs accepts web q root pre b d from ws R C K P B S W I N st b _ G (b_wished abspath q pre b d from ws)) as EB.
  split; [|split].
  - destruct (web (ds_prebuild d)) as [x|]; [destruct (web (ds_patch d)) as [y|]|].
    + exact (proj1 (C149_only_test _ _ _ _ _ _ _ _ _ _ P B EP EB H)).
    + exact (proj1 (C149_from_archive _ _ _ _ _ _ _ _ _ P B EP EB H)).
    + exact (proj1 (C149_from_source _ _ _ _ _ _ _ _ P B EP H)).
  - intros X Y. destruct (web (ds_prebuild d)) as [x|]; [|contradiction]. destruct (web (ds_patch d)) as [y|]; [|contradiction].
    exact (proj1 (proj2 (C149_only_test _ _ _ _ _ _ _ _ _ _ P B EP EB H))).
  - exists st. split.
    + pose proof (all_info abspath q pre b d from ws C P B I) as A. fold cwd in A. rewrite A in G.
      exact (C148_inputs abspath fs accepts web cwd root all st R (all_understood abspath q root pre b d from ws K P B S W N) N G).
    + intros n e E. exact (C149_inputs_kept _ _ _ _ _ _ _ _ _ _ P B H E).
Qed.
Print Assumptions C149_run.

Example C149_run_case : let d := Desc [] None PU KU in let q := str "t" in let cwd := SLASH :: q in
  let from := Disk (abs (in_dir cwd "./build-patch.sh")) in
  directory_name (str "/d") /\ directory_name cwd /\ ~ In COLON cwd /\ script_lies abs cwd (str "/d") (ds_script d) from /\
  NoDup (map w_name (own_wishes abs cwd (ds_script d) from PU (str "pre.tgz") KU (str "k.tgz"))) /\
  match package abs (one_file "/t/build-patch.sh" "sh") anyname (one_url "s3://b/pre.tgz" "tar") good cwd (str "/d") d with
  | Some D => d_ran D = [Build; Test] /\ d_uploads D = [(KU, str "patch")] /\ d_storage D (str "build") = Some (Imported (str "sh"))
  | None => False end /\
  match package abs (one_file "/t/build-patch.sh" "sh") anyname (fun u => Some u) good cwd (str "/d") d with
  | Some D => d_ran D = [Test] /\ d_uploads D = []
  | None => False end.
Proof.
  cbv zeta. split; [exact root_ok|]. split; [exists [SLASH], 116; split; [reflexivity|unfold SLASH; discriminate]|].
  split; [apply not_colon; reflexivity|]. split; [reflexivity|]. split.
  - cbn [own_wishes map w_name]. repeat (constructor; [cbn; intuition discriminate|]). constructor.
  - split; vm_compute; repeat split.
Qed.

(** The directory of results: none of the user's own files, every file that was fetched, as it was fetched, and every file the
    scripts made, as the test left it or had found it *)
Theorem C149_results abspath script pu bu pre b st D n : bucket pu pre -> bucket bu b -> do_build abspath script pu bu st = Some D ->
  match st n with
  | Some (Imported _) => exported (d_storage D) n = None
  | Some (Stored c) => exported (d_storage D) n = Some c
  | None => forall c, exported (d_storage D) n = Some c ->
      exists v x, ran script Test v x /\ (v n = Some c \/ x n = Some c)
  end.
Proof.
  intros P B H. destruct (do_last _ _ _ _ _ _ _ _ P B H) as (s & K & W & _).
  destruct (st n) as [[c|c]|] eqn:E.
  - unfold exported. rewrite (worked_keeps _ _ _ _ _ _ W (K n _ E)). reflexivity.
  - unfold exported. rewrite (worked_keeps _ _ _ _ _ _ W (K n _ E)). reflexivity.
  - intros c X. destruct W as (v & x & T & S & G). exists v, x. split; [exact T|]. unfold exported in X. rewrite (G n) in X.
    destruct (s n) as [[y|y]|] eqn:Q; [discriminate| |].
    + injection X as <-. left. destruct (S n) as [Z1|[Z1 _]]; [rewrite Z1, Q; reflexivity|congruence].
    + destruct (x n) as [y|]; [injection X as <-; right; reflexivity|discriminate].
Qed.
Print Assumptions C149_results.
Example C149_results_case : match do_build abs good PU KU (sset (str "src.c") (Imported (str "own")) empty) with
  | Some D => exported (d_storage D) (str "src.c") = None /\ exported (d_storage D) (str "k.tgz") = Some (str "patch")
  | None => False end.
Proof. vm_compute. repeat split. Qed.
