(** C150: the command line of libcare-pkgbuild (scripts/pkgbuild), what it reads and what it removes. *)
From Coq Require Import String.
From Verif Require Import Base BaseProofs StorageModel TextModel LoptModel InstModel PkoptModel PkoptSpec PkoptProofs.
Open Scope list_scope.

Definition in_ (d : text) (n : string) : text := d ++ SLASH :: str n.
Lemma plain_in d n : plain d -> plain (str n) -> plain (in_ d n).
Proof. intros P Q. apply plain_app; [exact P|]. intros c [<-|I]; [unfold SLASH; lia|exact (Q c I)]. Qed.
Lemma go_main cd info works args a pd root : prepare cd args Build [] = Go a pd -> plain pd -> plain root -> root <> [] ->
  info (in_ pd "info") = Some root -> exists done z,
  main cd info works args = (Sourced (in_ pd "info") [] :: Removed [root; in_ pd "root.original"; in_ pd "root.patched"] :: map Ran done, z) /\
  carried_out works (steps a) done z.
Proof.
  intros E P Q N I. unfold main. rewrite E.
  assert (X : forall n, existsb (fun c => (c =? 32) || (c =? 9) || (c =? 10)) (str n) = false -> split_words [] (pd ++ str "/" ++ str n) = [in_ pd n]).
  { intros n F. rewrite split_plain; [reflexivity| |intros C; apply (f_equal (@length Z)) in C; rewrite !app_length in C; cbn in C; lia].
    apply (plain_in pd n P). intros c J. assert (Y : (c =? 32) || (c =? 9) || (c =? 10) = false); [|lia].
    destruct ((c =? 32) || (c =? 9) || (c =? 10)) eqn:Y; [|reflexivity]. rewrite <- F. symmetry. apply existsb_exists. exists c. split; [exact J|exact Y]. }
  change (str "/info") with (str "/" ++ str "info"). change (str "/root.original") with (str "/" ++ str "root.original"). change (str "/root.patched") with (str "/" ++ str "root.patched").
  rewrite !X by reflexivity. rewrite I. rewrite (split_plain root Q []) by exact N. cbn [app].
  destruct (run_carried works (steps a)) as (done & z & R & C). exists done, z. rewrite R. split; [reflexivity|exact C].
Qed.

(** Options before and behind the directory: the last one says what is done, with the info file of that directory.  Only the
    build root and the two trees of the directory are removed; the steps of the action are then taken in their order up to the
    first that fails, and success is reported exactly if none did *)
Theorem C150_runs cd info works o1 d o2 a pd root l :
  options o1 -> options o2 -> asked (o1 ++ o2) a -> work a l -> dir_word d -> lies_at cd d pd -> plain pd -> plain root -> root <> [] ->
  info (in_ pd "info") = Some root -> exists done z,
  main cd info works (o1 ++ d :: o2) = (Sourced (in_ pd "info") [] :: Removed [root; in_ pd "root.original"; in_ pd "root.patched"] :: map Ran done, z) /\
  carried_out works l done z.
Proof.
  intros O1 O2 A W D L P Q N I. rewrite (work_unique a l W). apply go_main; try assumption.
  destruct (prepare_options cd o1 (d :: o2) Build [] O1) as (y & E & Y). rewrite E, (prepare_dir cd d o2 y D), (lies_names cd d pd L).
  destruct (prepare_options cd o2 [] y pd O2) as (x & F & X). rewrite app_nil_r in F. rewrite F. cbn [prepare]. f_equal.
  assert (U : forall w b c, option_word w b -> option_word w c -> b = c) by (intros w b c [] V; inversion V; reflexivity).
  destruct A as [(A & ->)|(o & w & A & V)].
  - apply app_eq_nil in A. destruct A as [-> ->]. destruct Y as [(_ & ->)|(o' & w & C & _)]; [|destruct o'; discriminate].
    destruct X as [(_ & ->)|(o' & w & C & _)]; [reflexivity|destruct o'; discriminate].
  - destruct X as [(-> & ->)|(o' & v & -> & V')].
    + rewrite app_nil_r in A. destruct Y as [(-> & _)|(o' & v & -> & V')]; [destruct o; discriminate|]. apply app_inj_tail in A. destruct A as [_ ->]. exact (U w _ _ V' V).
    + rewrite app_assoc in A. apply app_inj_tail in A. destruct A as [_ ->]. exact (U w _ _ V' V).
Qed.
Print Assumptions C150_runs.

(** Without an info file, or if it fails, nothing is removed and no step is taken *)
Theorem C150_no_info cd info works args f es z : main cd info works args = (es, z) -> In (Sourced f []) es -> info f = None -> es = [Sourced f []] /\ z = 1.
Proof.
  unfold main. intros H I N. destruct (prepare cd args Build []) as [a pd| |]; [|injection H as <- <-; destruct I|injection H as <- <-; destruct I].
  destruct (split_words [] (pd ++ str "/info")) as [|g argv]; [injection H as <- <-; destruct I|].
  destruct (info g) as [root|] eqn:E.
  - exfalso. destruct (run works (steps a)) as [xs y] eqn:R. injection H as <- <-. destruct I as [I|[I|I]]; [injection I as -> _; congruence|discriminate|].
    destruct (run_carried works (steps a)) as (done & k & R' & _). rewrite R in R'. injection R' as -> _. apply in_map_iff in I. destruct I as (x & C & _). discriminate.
  - injection H as <- <-. destruct I as [I|[]]. injection I as -> ->. split; reflexivity.
Qed.
Print Assumptions C150_no_info.

(** What comes before a word that ends the reading: options and at most one directory *)
Definition read_so_far (l : list text) : Prop := options l \/ exists o1 d o2, l = o1 ++ d :: o2 /\ options o1 /\ options o2 /\ dir_word d.
Lemma so_far cd l r : read_so_far l -> exists a pd, prepare cd (l ++ r) Build [] = prepare cd r a pd /\ (options l /\ pd = [] \/ ~ options l /\ pd <> []).
Proof.
  intros [O|(o1 & d & o2 & -> & O1 & O2 & D)].
  - destruct (prepare_options cd l r Build [] O) as (a & E & _). exists a, []. split; [exact E|left; split; [exact O|reflexivity]].
  - rewrite <- app_assoc. cbn [app]. destruct (prepare_options cd o1 (d :: o2 ++ r) Build [] O1) as (y & E & _). rewrite E, (prepare_dir cd d (o2 ++ r) y D).
    destruct (prepare_options cd o2 r y (project_dir cd d) O2) as (x & F & _). exists x, (project_dir cd d). split; [exact F|]. right. split; [|apply project_some].
    intros C. unfold options in C. apply Forall_app in C. destruct C as [_ C]. apply Forall_inv in C. destruct C as (a & W). destruct D as [_ D]. destruct W; eapply D; reflexivity.
Qed.
(** An unknown option, or a second directory, is refused with status 1 before anything is read or removed *)
Theorem C150_refused cd info works l w r : read_so_far l -> w <> [] -> ~ (exists a, option_word w a) -> ~ help_word w ->
  (exists q, w = DASH :: q) \/ ~ options l -> main cd info works (l ++ w :: r) = ([], 1).
Proof.
  intros S N O H K. unfold main. destruct (so_far cd l (w :: r) S) as (a & pd & E & X). rewrite E, prepare_unknown; try assumption; [reflexivity|].
  destruct K as [K|K]; [right; exact K|left; tauto].
Qed.
Print Assumptions C150_refused.
(** The request for help is granted, and nothing else is done *)
Theorem C150_help cd info works l w r : read_so_far l -> help_word w -> main cd info works (l ++ w :: r) = ([], 0).
Proof. intros S H. unfold main. destruct (so_far cd l (w :: r) S) as (a & pd & E & _). rewrite E, (prepare_help cd w r a pd H). reflexivity. Qed.
Print Assumptions C150_help.

(** A world to try it in *)
Definition here (p : text) : option text :=
  if list_eqb p (str ".") then Some (str "/w") else if list_eqb p (str "pkg") then Some (str "/w/pkg") else if list_eqb p (str "/home/u") then Some p else None.
Definition any_info (f : text) : option text := Some (str "/build").
Definition all_work (s : step) : bool := true.
Example C150_case : options [str "-p"] /\ options [str "--test"] /\ asked ([str "-p"] ++ [str "--test"]) Test /\ dir_word (str "pkg//q/") /\
  lies_at here (str "pkg//q/") (str "/w/pkg/q") /\ plain (str "/w/pkg/q") /\
  main here any_info (fun s => match s with UnpackPatch => false | _ => true end) [str "-p"; str "pkg//q/"; str "--test"] =
    ([Sourced (str "/w/pkg/q/info") []; Removed [str "/build"; str "/w/pkg/q/root.original"; str "/w/pkg/q/root.patched"];
      Ran OverwriteUtils; Ran EnvHook; Ran UnpackPrebuilt; Ran PrepareTestBinaries; Ran UnpackPatch], 1) /\
  read_so_far [str "-p"; str "q"] /\ main here any_info all_work [str "-p"; str "q"; str "--quiet"] = ([], 1) /\
  main here any_info all_work [str "q"; str "r"] = ([], 1) /\ main here any_info all_work [str "q"; str "-h"; str "r"] = ([], 0).
Proof.
  split; [constructor; [eexists; constructor|constructor]|]. split; [constructor; [eexists; constructor|constructor]|].
  split; [right; exists [str "-p"], (str "--test"); split; [reflexivity|constructor]|]. split; [split; [discriminate|intros r; discriminate]|].
  split; [apply (A_path here (str "pkg") 1 (str "q") 1 (str "/w/pkg")); [split; [discriminate|cbn; intuition discriminate]|discriminate| |reflexivity]|].
  - intros (q & C). destruct q as [|x [|y [|z q]]]; cbn in C; try discriminate. injection C as <- <- <- C. destruct q; discriminate.
  - split; [intros c I; cbn in I; lia|]. split; [vm_compute; reflexivity|]. split.
    + right. exists [str "-p"], (str "q"), []. split; [reflexivity|]. split; [constructor; [eexists; constructor|constructor]|]. split; [constructor|split; [discriminate|intros r; discriminate]].
    + split; [vm_compute; reflexivity|]. split; vm_compute; reflexivity.
Qed.

(** A directory that cannot be entered is taken for the top one: the info file of another project is read, and its trees
    are removed *)
Theorem C150_elsewhere_refuted : exists cd info works d p n es, d = p ++ SLASH :: n /\ cd p = None /\ dir_word d /\ simple n /\
  main cd info works [d] = (Sourced (in_ (SLASH :: n) "info") [] :: Removed [str "/build"; in_ (SLASH :: n) "root.original"; in_ (SLASH :: n) "root.patched"] :: es, 0).
Proof.
  exists here, any_info, all_work, (str "gone/q"), (str "gone"), (str "q"). eexists. split; [reflexivity|]. split; [reflexivity|].
  split; [split; [discriminate|intros r; discriminate]|]. split; [split; [discriminate|cbn; intuition discriminate]|]. vm_compute. reflexivity.
Qed.
Print Assumptions C150_elsewhere_refuted.
(** With a blank in the directory's name another file is run as a script, and removed *)
Theorem C150_blank_refuted : exists cd info works d pd f argv l es, lies_at cd d pd /\ dir_word d /\ main cd info works [d] = (Sourced f argv :: Removed l :: es, 0) /\
  f <> in_ pd "info" /\ In f l /\ f <> in_ pd "root.original" /\ f <> in_ pd "root.patched" /\ info f <> Some f.
Proof.
  exists here, any_info, all_work, (str "/home/u/my patches"), (str "/home/u/my patches"), (str "/home/u/my"), [str "patches/info"]. eexists. eexists.
  split; [apply (A_path here (str "/home/u") 0 (str "my patches") 0 (str "/home/u")); [split; [discriminate|cbn; intuition discriminate]|discriminate| |reflexivity]|].
  - intros (q & C). assert (E : last (str "/home/u") 0 = SLASH) by (rewrite C, last_last; reflexivity). discriminate.
  - split; [split; [discriminate|intros r; discriminate]|]. split; [vm_compute; reflexivity|]. split; [discriminate|]. split; [right; left; reflexivity|]. repeat split; discriminate.
Qed.
Print Assumptions C150_blank_refuted.
(** Options behind an empty word are passed over without a word *)
Theorem C150_empty_word_refuted : exists cd info works d es, dir_word d /\ main cd info works [d; []; str "--test"] = (es, 0) /\ In (Ran PackPatch) es /\ ~ In (Ran PatchTest) es.
Proof.
  exists here, any_info, all_work, (str "q"). eexists. split; [split; [discriminate|intros r; discriminate]|]. split; [vm_compute; reflexivity|].
  split; [cbn; tauto|cbn; intuition discriminate].
Qed.
Print Assumptions C150_empty_word_refuted.
(** Without a directory it works on the top one *)
Theorem C150_no_directory_refuted : exists cd info works es, main cd info works [] = (Sourced (str "/info") [] :: Removed [str "/build"; str "/root.original"; str "/root.patched"] :: es, 0).
Proof. exists here, any_info, all_work. eexists. vm_compute. reflexivity. Qed.
Print Assumptions C150_no_directory_refuted.
(** A build for which there is no archive of the original one fails only after the trees were removed *)
Theorem C150_removed_first_refuted : exists cd info works d pd es, lies_at cd d pd /\ works UnpackPrebuilt = false /\ main cd info works [d] = (es, 1) /\
  exists l, In (Removed l) es /\ In (in_ pd "root.original") l.
Proof.
  exists here, any_info, (fun s => match s with UnpackPrebuilt => false | _ => true end), (str "q"), (str "/w/q"). eexists.
  split; [apply (A_name here (str "q") 0 (str "/w")); [split; [discriminate|cbn; intuition discriminate]|reflexivity]|]. split; [reflexivity|]. split; [vm_compute; reflexivity|].
  eexists. split; [right; left; reflexivity|]. right. left. reflexivity.
Qed.
Print Assumptions C150_removed_first_refuted.
