(** Properties of the command line of libcare-patch-make and of its editing of config-host.mak. *)
From Coq Require Import String.
From Verif Require Import Base StorageModel MakeModel TextModel LpModel LpSpec LpProofs LoptModel LoptSpec LoptProofs.
Open Scope list_scope.

(** * C146: the options say what is done *)
(** However the options are written and in whatever order, each value arrives as it was given, with quotes, blanks and
    new lines; the last one counts; the patches stay in their order. *)
Theorem C146_reads : forall env ps wss tail rest, Forall2 says ps wss -> (tail = [] /\ rest = [] \/ tail = str "--" :: rest) ->
  read_options env (concat wss ++ tail) = Read (asked env (opts_of ps)) (patches_of ps ++ rest).
Proof. exact options_read. Qed.
Print Assumptions C146_reads.
Definition IT := [105; 116; 39; 115; 32; 96; 36; 10].        (* it's `$ and a new line *)
Example C146_reads_case : Forall2 says [POpt (OId (str "x")); PPatch (str "a.patch"); POpt OClean; POpt (OSrc IT); POpt (OId (str "fix7"))]
  [[str "-i"; str "x"]; [str "a.patch"]; [str "--cl"]; [str "--srcdir=" ++ IT]; [str "-ifix7"]].
Proof.
  apply Forall2_cons; [left; reflexivity|]. apply Forall2_cons; [split; [reflexivity|intros r H; discriminate]|].
  apply Forall2_cons; [right; exists (str "--cl"); split; [exists (str "cl"), (str "ean"); split; [reflexivity|split; [discriminate|reflexivity]]|reflexivity]|].
  apply Forall2_cons; [right; right; exists (str "--srcdir"); split; [exists (str "srcdir"), []; split; [reflexivity|split; [discriminate|reflexivity]]|right; reflexivity]|].
  apply Forall2_cons; [right; left; split; [discriminate|reflexivity]|]. apply Forall2_nil.
Qed.
Example C146_reads_result : read_options nothing [str "-i"; str "x"; str "a.patch"; str "--cl"; str "--srcdir=" ++ IT; str "-ifix7"; str "--"; str "-b.patch"] =
  Read (Conf IT false true (str "DESTDIR") (str "fix7") [] []) [str "a.patch"; str "-b.patch"].
Proof. vm_compute. reflexivity. Qed.

(** What a run then does, step by step: with --update only patches are made of what is there, otherwise both builds, in
    order, after cleaning if that was asked for. *)
Theorem C146_steps : forall utf8 w t cc libcare proot env patch_of execs ps wss tail rest m real,
  Forall2 says ps wss -> (tail = [] /\ rest = [] \/ tail = str "--" :: rest) ->
  let c := asked env (opts_of ps) in
  id_ok utf8 (patch_id c) = true -> realpath 40 cc (files m) = Some real ->
  exists st m' made, lpmake utf8 w t cc libcare proot true env patch_of execs (concat wss ++ tail) m = Exits st m' /\
    trace m' = trace m ++ (if only_update c then []
                           else (if do_clean c then [EClean] else []) ++ [EMake Original; EInstall Original]
                                ++ map EPatch (seq 0 (List.length (patches_of ps ++ rest))) ++ [EMake Patched; EInstall Patched])
               ++ map EKpatch made.
Proof.
  intros utf8 w t cc libcare proot env patch_of execs ps wss tail rest m real S T c Ic R. unfold lpmake. rewrite (options_read env ps wss tail rest S T). fold c. rewrite Ic. cbn [negb].
  destruct (main_trace w t cc libcare proot (do_clean c) (only_update c) (patch_id c) (given_of (given_id c)) (map (patch_of (srcdir c)) (patches_of ps ++ rest)) execs m real R) as (ks & K).
  destruct (main_checked _ _ _ _ _ _ _ _ _ _ _ _ _) as [st m']. exists st, m', ks. split; [reflexivity|]. cbn [snd] in K. rewrite K, map_length. reflexivity.
Qed.
Print Assumptions C146_steps.
Definition idle : world := World (fun _ _ f => f) (fun _ _ f => f) (fun f => f) (fun _ => false).
Definition no_tools : tools := Tools (fun _ => []) (fun _ => false) (fun _ => None) (fun _ _ => None) (fun _ => None) (fun _ _ => None) (fun _ _ _ => None).
Example C146_steps_case : let m := Mach [(str "/cc", Link (str "/gcc")); (str "/gcc", File [] 0)] 5 [] in
  id_ok true (patch_id (asked nothing (opts_of [POpt (OId (str "fix7")); POpt OClean; PPatch (str "a.patch")]))) = true /\ realpath 40 (str "/cc") (files m) = Some (str "/gcc") /\
  exists m', lpmake true idle no_tools (str "/cc") (str "/libcare-cc") (str "/p") true nothing (fun _ _ => []) [] [str "-ifix7"; str "-c"; str "a.patch"] m = Exits 0 m' /\
    trace m' = [EClean; EMake Original; EInstall Original; EPatch 0; EMake Patched; EInstall Patched].
Proof. split; [reflexivity|]. split; [reflexivity|]. eexists. split; vm_compute; reflexivity. Qed.

(** Without an id, or with one of more than seven characters, the run fails; nothing was built, and if no backups of an
    earlier run were there nothing was touched. *)
Theorem C146_refused : forall utf8 w t cc libcare proot gensrc env patch_of execs ps wss tail rest m,
  Forall2 says ps wss -> (tail = [] /\ rest = [] \/ tail = str "--" :: rest) ->
  let id := patch_id (asked env (opts_of ps)) in
  id = [] \/ 7 < chars utf8 id ->
  exists m', lpmake utf8 w t cc libcare proot gensrc env patch_of execs (concat wss ++ tail) m = Exits 1 m' /\ trace m' = trace m /\ clock m' = clock m /\
    ((forall p, lookup p (files m) <> None -> base_of p = None) -> m' = m).
Proof.
  intros utf8 w t cc libcare proot gensrc env patch_of execs ps wss tail rest m S T id H. unfold lpmake. rewrite (options_read env ps wss tail rest S T). fold id.
  assert (N : id_ok utf8 id = false).
  { unfold id_ok. destruct H as [->|H]; [reflexivity|]. rewrite (proj2 (Z.leb_gt _ _) H), andb_false_r. reflexivity. }
  rewrite N. cbn [negb]. eexists. split; [reflexivity|]. split; [reflexivity|]. split; [reflexivity|]. intros B. rewrite (restore_none _ B). destruct m; reflexivity.
Qed.
Print Assumptions C146_refused.
Example C146_refused_case : 7 < chars true (patch_id (asked nothing (opts_of [POpt (OId (str "12345678"))]))).
Proof. reflexivity. Qed.

(** An id that is accepted in a locale of single bytes is in the patch as it was given: two patches made with different ids
    can be told apart. *)
Theorem C146_id : forall id id' n bid now, id_ok false id = true -> id_ok false id' = true -> ~ In 0 id -> ~ In 0 id' ->
  make_header n bid id now = make_header n bid id' now -> id = id'.
Proof.
  assert (U : forall s, ~ In 0 s -> upto_nul s = s).
  { induction s as [|c s IH]; intros N; [reflexivity|]. cbn [upto_nul]. destruct (Z.eqb_spec c 0) as [->|_]; [exfalso; apply N; left; reflexivity|]. rewrite IH; [reflexivity|]. intros I. apply N. right. exact I. }
  assert (C : forall id, id_ok false id = true -> ~ In 0 id -> strncpy id 7 = id ++ repeat 0 (Z.to_nat (7 - zlen id))).
  { intros id K N. unfold id_ok, chars in K. apply andb_true_iff in K. destruct K as [_ K]. apply Z.leb_le in K. unfold zlen in *. unfold strncpy. rewrite (U id N), firstn_all2 by lia. reflexivity. }
  intros id id' n bid now K K' N N' H. unfold make_header in H. apply app_inv_head in H. apply app_inv_head in H. rewrite (C _ K N), (C _ K' N') in H.
  assert (Z0 : forall (a b : list Z) k j s s', ~ In 0 a -> ~ In 0 b -> (a ++ repeat 0 k) ++ 0 :: s = (b ++ repeat 0 j) ++ 0 :: s' -> a = b).
  { induction a as [|x a IH]; intros b k j s s' A B E; destruct b as [|y b]; [reflexivity| | |].
    - exfalso. destruct k; cbn in E; injection E as E _; apply B; left; auto.
    - exfalso. destruct j; cbn in E; injection E as E _; apply A; left; auto.
    - cbn [app] in E. injection E as -> E. f_equal. apply (IH b k j s s'); [intros I; apply A; right; exact I|intros I; apply B; right; exact I|exact E]. }
  exact (Z0 id id' _ _ _ _ N N' H).
Qed.
Print Assumptions C146_id.
Example C146_id_case : id_ok false (str "1234567") = true /\ id_ok false (str "12345678") = false.
Proof. split; reflexivity. Qed.
(** In a locale of UTF-8 seven characters may be more bytes than there is room for: two ids are accepted and the patches made
    with them cannot be told apart. *)
Theorem C146_id_refuted : exists id id', id_ok true id = true /\ id_ok true id' = true /\ ~ In 0 id /\ ~ In 0 id' /\ id <> id' /\
  forall n bid now, make_header n bid id now = make_header n bid id' now.
Proof.
  exists (concat (repeat [195; 169] 4)), (concat (repeat [195; 169] 3) ++ [195; 169; 97]).
  split; [reflexivity|]. split; [reflexivity|]. split; [cbn; intuition discriminate|]. split; [cbn; intuition discriminate|]. split; [discriminate|]. reflexivity.
Qed.
Print Assumptions C146_id_refuted.

(** A command line that is wrong is not refused: the text that explains the usage is put behind what getopt printed and
    given to the shell as commands. *)
Theorem C146_unknown_evaluated : forall env ps wss c x r, Forall2 says ps wss -> unknown_letter c ->
  read_options env (concat wss ++ (45 :: c :: x) :: r) = Evaluates.
Proof. intros env ps wss c x r S U. apply bad_evaluates. rewrite (bad_after ps wss _ S). apply bad_letter, U. Qed.
Print Assumptions C146_unknown_evaluated.
Theorem C146_unknown_name_evaluated : forall env ps wss n r, Forall2 says ps wss -> unknown_name n -> ~ In 61 n -> n <> [] ->
  read_options env (concat wss ++ (str "--" ++ n) :: r) = Evaluates.
Proof. intros env ps wss n r S U E N. apply bad_evaluates. rewrite (bad_after ps wss _ S). apply (bad_name n r U E N). Qed.
Print Assumptions C146_unknown_name_evaluated.
Theorem C146_missing_evaluated : forall env ps wss c, Forall2 says ps wss -> In c (str "sdibj") ->
  read_options env (concat wss ++ [[45; c]]) = Evaluates.
Proof.
  intros env ps wss c S I. apply bad_evaluates. rewrite (bad_after ps wss _ S). cbn in I. repeat (destruct I as [<-|I]; [reflexivity|]). contradiction.
Qed.
Print Assumptions C146_missing_evaluated.
(** So even --help, which the text itself names, does not print it. *)
Theorem C146_help_refuted : exists args, args = [str "--help"] /\ forall utf8 w t cc libcare proot gensrc env patch_of execs m,
  lpmake utf8 w t cc libcare proot gensrc env patch_of execs args m = Evaluated.
Proof.
  exists [str "--help"]. split; [reflexivity|]. intros. unfold lpmake. rewrite (bad_evaluates env [str "--help"]); reflexivity.
Qed.
Print Assumptions C146_help_refuted.

(** A run that is refused still moves backups over the sources: those of another run that is under way, or files that have
    such a name by chance. *)
Theorem C146_refused_refuted : exists args m m' p, (forall utf8 w t cc libcare proot gensrc patch_of execs,
  lpmake utf8 w t cc libcare proot gensrc nothing patch_of execs args m = Exits 1 m') /\ lookup p (files m') <> lookup p (files m).
Proof.
  exists [str "a.patch"], (Mach [(str "/a.c", File (str "new") 2); (str "/a.c.0.lpmakeorig", File (str "old") 1)] 5 []).
  eexists. exists (str "/a.c"). split; [intros; vm_compute; reflexivity|]. vm_compute. discriminate.
Qed.
Print Assumptions C146_refused_refuted.

(** Variables of the environment stand for options that were not given. *)
Theorem C146_environment_refuted : exists env args c ps, read_options env args = Read c ps /\ read_options nothing args <> Read c ps /\ only_update c = true.
Proof.
  exists (Conf [] true false [] [] [] []), [str "-i"; str "fix7"; str "a.patch"]. eexists. eexists. split; [vm_compute; reflexivity|]. split; [vm_compute; discriminate|reflexivity].
Qed.
Print Assumptions C146_environment_refuted.
(** A build id with a blank in it is not used, and nothing is said. *)
Theorem C146_build_id_refuted : exists b, b <> [] /\ given_of b <> Some b /\ (forall utf8 w t cc libcare proot gensrc patch_of execs m,
  lpmake utf8 w t cc libcare proot gensrc nothing patch_of execs [str "-i"; str "fix7"; str "-b"; b] m =
  lpmake utf8 w t cc libcare proot gensrc nothing patch_of execs [str "-i"; str "fix7"] m).
Proof.
  exists (str "12 34"). split; [discriminate|]. split; [discriminate|]. intros. unfold lpmake.
  change (read_options nothing [str "-i"; str "fix7"; str "-b"; str "12 34"]) with (Read (Conf [] false false (str "DESTDIR") (str "fix7") (str "12 34") []) []).
  change (read_options nothing [str "-i"; str "fix7"]) with (Read (Conf [] false false (str "DESTDIR") (str "fix7") [] []) []). reflexivity.
Qed.
Print Assumptions C146_build_id_refuted.

(** * C147: the flags of QEMU's build *)
(** After the build of the patched sources config-host.mak is what it was, whichever shell, as long as no line that sets the
    flags has a backslash in it. *)
Theorem C147_given_back_partial : forall bash ls, Forall line_ok ls -> (forall l, In l ls -> sets_flags l -> ~ In 92 l) ->
  exists during, edit_config bash (text_of ls) = Some (during, text_of ls).
Proof. exact config_restored. Qed.
Print Assumptions C147_given_back_partial.

(** While the patched sources are built the one line that sets the flags has -Wl,-q added to it, if it was not there, and all
    other lines are as they were. *)
Theorem C147_linked_partial : forall a l b, Forall line_ok (a ++ l :: b) -> sets_flags l -> (forall k, In k (a ++ b) -> ~ sets_flags k) -> ~ In 92 l ->
  exists l', edit_config true (text_of (a ++ l :: b)) = Some (text_of (a ++ l' :: b), text_of (a ++ l :: b)) /\ inside (str "-Wl,-q") l' /\
    (l' = l \/ ~ inside (str "-Wl,-q") l /\ l' = l ++ str " -Wl,-q").
Proof.
  intros a l b L S O N. assert (F : forall x, (forall k, In k x -> ~ sets_flags k) -> filter (begins KEY) x = []).
  { intros x H. induction x as [|k x IH]; [reflexivity|]. cbn [filter]. destruct (begins KEY k) eqn:E; [exfalso; apply (H k (or_introl eq_refl)), key_spec, E|]. apply IH. intros j I. apply H. right. exact I. }
  pose proof (config_one true a l b L (F a (fun k I => O k (in_or_app _ _ _ (or_introl I)))) (F b (fun k I => O k (in_or_app _ _ _ (or_intror I)))) (proj2 (key_spec l) S) N) as E. cbn [andb] in E.
  destruct (contains MINUS_Q l) eqn:C; cbn [negb] in E.
  - exists l. split; [exact E|]. split; [apply contains_spec; exact C|left; reflexivity].
  - exists (l ++ str " -Wl,-q"). split; [exact E|]. split; [exists (l ++ [32]), []; rewrite <- app_assoc; reflexivity|]. right. split; [|reflexivity]. intros I. apply contains_spec in I. change (str "-Wl,-q") with MINUS_Q in I. congruence.
Qed.
Print Assumptions C147_linked_partial.
Definition HOST := [str "CC=gcc"; str "QEMU_LDFLAGS=-Wl,-z,now"; str "LIBS=-lm"].
Example C147_linked_case : Forall line_ok HOST /\ edit_config true (text_of HOST) =
  Some (text_of [str "CC=gcc"; str "QEMU_LDFLAGS=-Wl,-z,now -Wl,-q"; str "LIBS=-lm"], text_of HOST).
Proof. split; [repeat constructor; intros I; cbn in I; intuition discriminate|vm_compute; reflexivity]. Qed.

(** A backslash is lost for good. *)
Theorem C147_backslash_refuted : exists ls during after, Forall line_ok ls /\ edit_config true (text_of ls) = Some (during, after) /\ after <> text_of ls.
Proof.
  exists [str "QEMU_LDFLAGS=-Wl,-rpath,\$$ORIGIN"]. eexists. eexists. split; [repeat constructor; intros I; cbn in I; intuition discriminate|]. split; [vm_compute; reflexivity|vm_compute; discriminate].
Qed.
Print Assumptions C147_backslash_refuted.
(** Where two lines set the flags, and where sh is not bash, nothing is added, and nothing is said. *)
Theorem C147_two_lines_refuted : exists a l b, Forall line_ok (a ++ l :: b) /\ sets_flags l /\ ~ In 92 (concat (a ++ l :: b)) /\ ~ inside (str "-Wl,-q") (text_of (a ++ l :: b)) /\
  edit_config true (text_of (a ++ l :: b)) = Some (text_of (a ++ l :: b), text_of (a ++ l :: b)).
Proof.
  exists [], (str "QEMU_LDFLAGS=-g"), [str "QEMU_LDFLAGS=-O"]. split; [repeat constructor; intros I; cbn in I; intuition discriminate|]. split; [exists (str "-g"); reflexivity|].
  split; [cbn; intuition discriminate|]. split; [intros H; apply contains_spec in H; vm_compute in H; discriminate|]. vm_compute. reflexivity.
Qed.
Print Assumptions C147_two_lines_refuted.
Theorem C147_other_shell_refuted : exists l, line_ok l /\ sets_flags l /\ ~ In 92 l /\ ~ inside (str "-Wl,-q") l /\ edit_config false (text_of [l]) = Some (text_of [l], text_of [l]).
Proof.
  exists (str "QEMU_LDFLAGS=-g"). split; [intros I; cbn in I; intuition discriminate|]. split; [exists (str "-g"); reflexivity|].
  split; [cbn; intuition discriminate|]. split; [intros H; apply contains_spec in H; vm_compute in H; discriminate|]. vm_compute. reflexivity.
Qed.
Print Assumptions C147_other_shell_refuted.
(** Another option that begins like it is taken for it. *)
Theorem C147_looks_alike_refuted : exists l, line_ok l /\ sets_flags l /\ ~ In 92 l /\ ~ inside (str "-Wl,-q ") (l ++ str " ") /\ edit_config true (text_of [l]) = Some (text_of [l], text_of [l]).
Proof.
  exists (str "QEMU_LDFLAGS=-Wl,-qmagic"). split; [intros I; cbn in I; intuition discriminate|]. split; [exists (str "-Wl,-qmagic"); reflexivity|].
  split; [cbn; intuition discriminate|]. split; [intros H; apply contains_spec in H; vm_compute in H; discriminate|]. vm_compute. reflexivity.
Qed.
Print Assumptions C147_looks_alike_refuted.
(** A last line without an end gets one. *)
Theorem C147_last_line_refuted : exists s during after, ~ In 92 s /\ edit_config true s = Some (during, after) /\ after <> s.
Proof.
  exists (str "QEMU_LDFLAGS=-g"). eexists. eexists. split; [cbn; intuition discriminate|]. split; [vm_compute; reflexivity|vm_compute; discriminate].
Qed.
Print Assumptions C147_last_line_refuted.
(** After a run that was killed during the build of the patched sources the added flag stays, whatever is run later. *)
Theorem C147_killed_refuted : exists ls during after, Forall line_ok ls /\ ~ In 92 (concat ls) /\ edit_config true (text_of ls) = Some (during, text_of ls) /\ edit_config true during = Some (during, after) /\
  after = during /\ after <> text_of ls.
Proof.
  exists HOST. eexists. eexists. split; [repeat constructor; intros I; cbn in I; intuition discriminate|]. split; [cbn; intuition discriminate|]. split; [vm_compute; reflexivity|]. split; [vm_compute; reflexivity|]. split; [reflexivity|vm_compute; discriminate].
Qed.
Print Assumptions C147_killed_refuted.
