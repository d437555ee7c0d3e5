(** C158: the verdicts of tests/run_tests.sh. *)
From Coq Require Import String Ascii Lia.
From Verif Require Import Base TestsModel TestsProofs.
Open Scope string_scope.
Open Scope list_scope.
Open Scope Z_scope.

(** One of the last two lines says [w], small and capital letters alike. *)
Definition says (w : string) (out : list string) : Prop :=
  exists l a b, In l (skipn (List.length out - 2) out) /\ low l = (a ++ low w ++ b)%string.

(** The same as a word, or the beginning of a word, of its own. *)
Definition says_word (w : string) (out : list string) : Prop :=
  exists l a b, In l (skipn (List.length out - 2) out) /\
    low l = (a ++ low w ++ b)%string /\
    (a = "" \/ exists a' c, a = (a' ++ String c "")%string /\ word_char c = false).

Lemma says_spec w out : grep_tail false w out = true <-> says w out.
Proof.
  unfold grep_tail, says, tail_n. rewrite grep_spec. split.
  - intros (l & a & b & I & E & _). eauto.
  - intros (l & a & b & I & E). exists l, a, b. repeat split; auto. discriminate.
Qed.

Lemma says_word_spec w out : grep_tail true w out = true <-> says_word w out.
Proof.
  unfold grep_tail, says_word, tail_n. rewrite grep_spec. split.
  - intros (l & a & b & I & E & W). exists l, a, b. repeat split; auto.
    exact (W eq_refl).
  - intros (l & a & b & I & E & W). exists l, a, b. repeat split; auto.
Qed.

(** An ordinary test passes if and only if one of the last two lines has PATCHED
    where no letter stands before it; UNPATCHED does not count. *)
Theorem C158_patched : forall name out,
  name <> "simplest" -> prefix "fail_" name = false ->
  name <> "ref_orig_threads" -> name <> "both" ->
  (check_result name out = 0 <-> says_word "PATCHED" out).
Proof.
  intros name out A B C D. unfold check_result.
  apply String.eqb_neq in A. apply String.eqb_neq in C. apply String.eqb_neq in D.
  rewrite A, B, C, D.
  destruct (name =s "fail_unpatch") eqn:E.
  { apply String.eqb_eq in E. subst. discriminate. }
  rewrite status_zero. apply says_word_spec.
Qed.

(** The others: a test that must fail to patch passes if UNPATCHED is still said,
    the simplest one if it is not, the one that must fail to unpatch if PATCHED is. *)
Theorem C158_kinds : forall name out,
  (prefix "fail_" name = true -> name <> "fail_unpatch" ->
   (check_result name out = 0 <-> says "UNPATCHED" out)) /\
  (check_result "fail_unpatch" out = 0 <-> says_word "PATCHED" out) /\
  (check_result "simplest" out = 0 <-> ~ says "UNPATCHED" out) /\
  (check_result "both" out = 0 <->
   says_word "PATCHED shared library" out /\ says_word "PATCHED binary" out).
Proof.
  intros name out. split; [|split; [|split]].
  - intros P N. unfold check_result.
    destruct (name =s "simplest") eqn:E.
    { apply String.eqb_eq in E. subst. discriminate. }
    apply String.eqb_neq in N. rewrite N, P, status_zero. apply says_spec.
  - change (check_result "fail_unpatch" out) with (status (grep_tail true "PATCHED" out)).
    rewrite status_zero. apply says_word_spec.
  - change (check_result "simplest" out) with (status (negb (grep_tail false "UNPATCHED" out))).
    rewrite status_zero, <- says_spec.
    destruct (grep_tail false "UNPATCHED" out); cbn; intuition congruence.
  - change (check_result "both" out) with
      (status (grep_tail true "PATCHED shared library" out && grep_tail true "PATCHED binary" out)).
    rewrite status_zero, andb_true_iff, !says_word_spec. reflexivity.
Qed.

(** The threads that must keep the old code: the second thread patched and the first
    not, in the last three lines.  At the start also programs that cannot be patched
    later are: PATCHED must be said on any line, in capitals.  patchlevel must have
    shown both levels of both parts. *)
Theorem C158_more_kinds : forall name out,
  let line p := exists l a b, In l out /\ l = (a ++ p ++ b)%string in
  let last3 p := exists l a b, In l (skipn (List.length out - 3) out) /\
                   low l = (a ++ low p ++ b)%string in
  (check_result "ref_orig_threads" out = 0 <->
   last3 "thread2 (PATCHED)" /\ last3 "thread1 (UNPATCHED)") /\
  (In name ["fail_coro"; "fail_busy_single"; "fail_busy_single_top"; "fail_threading"] ->
   (check "test_patch_startup" name [] out = 0 <->
    exists l a b, In l out /\ l = (a ++ "PATCHED" ++ b)%string /\
      (a = "" \/ exists a' c, a = (a' ++ String c "")%string /\ word_char c = false))) /\
  (check "test_patch_startup_ld_linux" "fail_busy_threads" [] out = 0 <->
   line "thread1 (UNPATCHED" /\ line "thread2 (PATCHED") /\
  (prefix "fail_" name = false ->
   check "test_patch_startup" name [] out = check "test_patch_dir" name [] out) /\
  (check "test_patch_patchlevel" name [] out = 0 <->
   name = "patchlevel" /\
   line "Hello from SEMIPATCHED shared library" /\ line "Welcome from SEMIPATCHED binary" /\
   line "Hello from PATCHED shared library" /\ line "Welcome from PATCHED binary").
Proof.
  intros name out line last3.
  assert (L : forall p, grep false false p out = true <-> line p).
  { intros p. rewrite grep_spec. unfold line. split.
    - intros (l & a & b & I & E & _). eauto.
    - intros (l & a & b & I & E). exists l, a, b. repeat split; auto. discriminate. }
  assert (L3 : forall p, grep true false p (tail_n 3 out) = true <-> last3 p).
  { intros p. rewrite grep_spec. unfold last3, tail_n. split.
    - intros (l & a & b & I & E & _). eauto.
    - intros (l & a & b & I & E). exists l, a, b. repeat split; auto. discriminate. }
  split; [|split; [|split; [|split]]].
  - change (check_result "ref_orig_threads" out) with
      (status (grep true false "thread2 (PATCHED)" (tail_n 3 out) &&
               grep true false "thread1 (UNPATCHED)" (tail_n 3 out))).
    rewrite status_zero, andb_true_iff, !L3. reflexivity.
  - intros I.
    assert (E : check "test_patch_startup" name [] out = status (grep false true "PATCHED" out)).
    { destruct I as [<-|[<-|[<-|[<-|[]]]]]; reflexivity. }
    rewrite E, status_zero, grep_spec. split.
    + intros (l & a & b & J & K & W). exists l, a, b. split; [exact J|].
      split; [exact K|exact (W eq_refl)].
    + intros (l & a & b & J & K & W). exists l, a, b. split; [exact J|].
      split; [exact K|]. intros _. exact W.
  - change (check "test_patch_startup_ld_linux" "fail_busy_threads" [] out) with
      (status (grep false false "thread1 (UNPATCHED" out &&
               grep false false "thread2 (PATCHED" out)).
    rewrite status_zero, andb_true_iff, !L. reflexivity.
  - intros P.
    change (check_result_startup name out = check_result name out).
    unfold check_result_startup.
    destruct (String.eqb_spec name "fail_coro") as [->|_]; [discriminate|].
    destruct (String.eqb_spec name "fail_threading") as [->|_]; [discriminate|].
    destruct (String.eqb_spec name "fail_busy_threads") as [->|_]; [discriminate|].
    destruct (prefix "fail_busy_single" name) eqn:Q; [|reflexivity].
    apply prefix_app in Q. destruct Q as [b ->]. cbn in P. destruct b; discriminate.
  - change (check "test_patch_patchlevel" name [] out) with (check_result_patchlevel name out).
    unfold check_result_patchlevel. rewrite <- !L.
    destruct (String.eqb_spec name "patchlevel") as [->|N]; cbn [negb];
      [|split; [discriminate|intros [X _]; contradiction]].
    destruct (grep false false "Hello from SEMIPATCHED shared library" out); cbn [negb];
      [|split; [discriminate|intuition discriminate]].
    destruct (grep false false "Welcome from SEMIPATCHED binary" out); cbn [negb];
      [|split; [discriminate|intuition discriminate]].
    destruct (grep false false "Hello from PATCHED shared library" out); cbn [negb];
      [|split; [discriminate|intuition discriminate]].
    destruct (grep false false "Welcome from PATCHED binary" out); cbn [negb];
      [|split; [discriminate|intuition discriminate]].
    intuition reflexivity.
Qed.

(** The simplest test is also passed by a program that has said nothing at all. *)
Theorem C158_silent_refuted : exists out,
  check_result "simplest" out = 0 /\ ~ says_word "PATCHED" out.
Proof.
  exists []. split; [reflexivity|]. intros (l & a & b & [] & _).
Qed.

(** Unpatching: passed if and only if the program was seen patched before and is not
    any more; the one that must fail, if it was and still is. *)
Theorem C158_unpatch : forall name before after,
  name <> "simplest" -> prefix "fail_" name = false ->
  name <> "ref_orig_threads" -> name <> "both" ->
  (check "test_unpatch_files" name before after = 0 <->
   says_word "PATCHED" before /\ ~ says_word "PATCHED" after) /\
  (check "test_unpatch_files" "fail_unpatch" before after = 0 <->
   says_word "PATCHED" before /\ says_word "PATCHED" after).
Proof.
  intros name before after A B C D.
  change (check "test_unpatch_files" name before after)
    with (check_result_unpatch name before after).
  change (check "test_unpatch_files" "fail_unpatch" before after)
    with (check_result_unpatch "fail_unpatch" before after).
  rewrite !unpatch_spec. split.
  - destruct (name =s "fail_unpatch") eqn:E.
    { apply String.eqb_eq in E. subst. discriminate. }
    rewrite (C158_patched name before A B C D), (C158_patched name after A B C D).
    reflexivity.
  - change ("fail_unpatch" =s "fail_unpatch") with true. cbn iota.
    destruct (C158_kinds name before) as (_ & -> & _).
    destruct (C158_kinds name after) as (_ & -> & _). reflexivity.
Qed.

(** Which tests are left out: of the flavors but patchlevel and unpatching, on other
    machines than aarch64 and riscv64, only patchlevel, and ifunc on release 6. *)
Theorem C158_skipped : forall flavor arch rh name,
  flavor <> "test_patch_patchlevel" -> flavor <> "test_unpatch_files" ->
  arch <> "aarch64" -> arch <> "riscv64" ->
  (should_skip flavor arch rh name = true <->
   name = "patchlevel" \/ (name = "ifunc" /\ rh = true)).
Proof.
  intros fl ar rh name F1 F2 A1 A2. unfold should_skip.
  apply String.eqb_neq in F1. apply String.eqb_neq in F2.
  apply String.eqb_neq in A1. apply String.eqb_neq in A2.
  rewrite F1, F2, A1, A2. cbn [andb].
  destruct (String.eqb_spec name "patchlevel") as [->|N1]; [intuition congruence|].
  destruct (String.eqb_spec name "ifunc") as [->|N2]; [intuition congruence|].
  destruct (one_of name _); intuition congruence.
Qed.

(** On every machine and for every flavor. *)
Theorem C158_skipped_all : forall flavor arch rh name,
  should_skip flavor arch rh name = true <->
  (flavor = "test_patch_patchlevel" /\ name <> "patchlevel") \/
  (flavor <> "test_patch_patchlevel" /\ name = "patchlevel") \/
  (arch = "aarch64" /\
   In name ["tls_shared"; "tls_simple"; "ref_glibc_data"; "fail_coro_listed"; "fail_coro"]) \/
  (arch = "riscv64" /\ In name ["fail_coro_listed"; "fail_coro"; "ref_orig_threads"]) \/
  ((arch = "aarch64" \/ arch = "riscv64") /\
   flavor = "test_unpatch_files" /\ name = "frame_finish") \/
  (name = "ifunc" /\ rh = true) \/
  (flavor = "test_unpatch_files" /\
   In name ["fail_busy_threads"; "fail_busy_single"; "fail_busy_single_top"; "fail_coro";
            "fail_threading"; "fail_coro_listed"]).
Proof.
  assert (O : forall x l, one_of x l = true <-> In x l).
  { intros x l. unfold one_of. rewrite existsb_exists. split.
    - intros (y & I & E). apply String.eqb_eq in E. subst. exact I.
    - intros I. exists x. split; [exact I|apply String.eqb_refl]. }
  intros fl ar rh name. unfold should_skip. rewrite <- !O.
  destruct (String.eqb_spec fl "test_patch_patchlevel") as [->|F1].
  { change ("test_patch_patchlevel" =s "test_unpatch_files") with false.
    destruct (String.eqb_spec name "patchlevel") as [->|N]; cbn [negb].
    - change (one_of "patchlevel" _) with false. cbn [andb orb].
      rewrite !andb_false_r. cbn.
      intuition (try discriminate; try congruence).
    - split; [|reflexivity]. auto. }
  destruct (String.eqb_spec name "patchlevel") as [->|N]; [intuition auto|].
  destruct (one_of name ["tls_shared"; _; _; _; _]) eqn:L1;
  destruct (one_of name ["fail_coro_listed"; _; _]) eqn:L2;
  destruct (String.eqb_spec fl "test_unpatch_files") as [U|U];
  destruct (String.eqb_spec name "frame_finish") as [FF|FF];
  destruct (String.eqb_spec ar "aarch64") as [A|A];
  destruct (String.eqb_spec ar "riscv64") as [R|R];
  cbn [andb orb];
  try (destruct (String.eqb_spec name "ifunc") as [I|I];
       [subst name|]);
  try (destruct (one_of name ["fail_busy_threads"; _; _; _; _; _]) eqn:L3);
  (discriminate L1 || discriminate L2 ||
   (split;
    [first [discriminate | intros ->; solve [auto 12] | intros _; solve [auto 12] | exfalso; congruence]
    |first [reflexivity | intros X; decompose [or and] X; first [discriminate | congruence]]])).
Qed.

(** patchlevel runs its own test and no other, on every machine. *)
Theorem C158_patchlevel : forall arch rh name,
  should_skip "test_patch_patchlevel" arch rh name = false <-> name = "patchlevel".
Proof.
  intros ar rh name. unfold should_skip.
  change ("test_patch_patchlevel" =s "test_patch_patchlevel") with true.
  change ("test_patch_patchlevel" =s "test_unpatch_files") with false. cbn iota.
  destruct (String.eqb_spec name "patchlevel") as [->|N]; cbn [negb].
  - change (one_of "patchlevel" _) with false. cbn [andb orb].
    rewrite !andb_false_r. cbn. intuition congruence.
  - intuition congruence.
Qed.

(** The summary counts every test once; FAILED names those run that did not pass, in
    order, with blanks between; [pick] keeps the names at the places given. *)
Theorem C158_counts : forall m opts out tests code c,
  Forall (fun n => n <> "") tests ->
  main m opts out tests = Summary code c ->
  exists flavor, get_flavor opts "test_patch_files" = Some flavor /\
  let failed i n := negb (should_skip flavor (arch m) (rhel6 m) n)
                    && negb (check flavor n (fst (out i)) (snd (out i)) =? 0) in
  ntotal c = zlen tests /\ nok c + nfailed c + nskipped c = ntotal c /\
  nskipped c = zlen (filter (should_skip flavor (arch m) (rhel6 m)) tests) /\
  nfailed c = zlen (pick failed 0 tests) /\
  FAILED c = String.concat " " (pick failed 0 tests).
Proof.
  intros m opts out tests code c F H.
  destruct (main_summary _ _ _ _ _ _ H) as (fl & G & E & _).
  exists fl. split; [exact G|]. cbn zeta.
  assert (L := loop_spec fl (arch m) (rhel6 m) out tests 0 (mkCounts 0 0 0 0 "")).
  cbn zeta in L. rewrite <- E in L. cbn [nskipped nfailed nok ntotal FAILED] in L.
  destruct L as (A & B & C & D & K).
  rewrite join_start in K by (apply pick_Forall; exact F).
  repeat split; [lia|lia|lia| |exact K]. unfold bad in C. lia.
Qed.

(** The script that ends with its summary ends with 0 if and only if every test that
    is not left out passed, else with 1. *)
Theorem C158_exit : forall m opts out tests code c,
  Forall (fun n => n <> "") tests ->
  main m opts out tests = Summary code c ->
  exists flavor, get_flavor opts "test_patch_files" = Some flavor /\
  (code = 0 \/ code = 1) /\
  (code = 0 <->
   forall i n, nth_error tests i = Some n ->
     should_skip flavor (arch m) (rhel6 m) n = false ->
     check flavor n (fst (out i)) (snd (out i)) = 0).
Proof.
  intros m opts out tests code c F H.
  destruct (main_summary _ _ _ _ _ _ H) as (fl & G & E & K).
  exists fl. split; [exact G|].
  assert (L := loop_spec fl (arch m) (rhel6 m) out tests 0 (mkCounts 0 0 0 0 "")).
  cbn zeta in L. rewrite <- E in L. cbn [FAILED] in L.
  destruct L as (_ & _ & _ & _ & L).
  assert (J := join_empty (pick (bad fl (arch m) (rhel6 m) out) 0 tests)
                 (pick_Forall _ _ _ 0%nat F)).
  rewrite <- L in J. rewrite pick_nil in J.
  split; [destruct (FAILED c =s ""); cbn in K; auto|].
  assert (Z0 : code = 0 <-> FAILED c = "").
  { rewrite K. destruct (String.eqb_spec (FAILED c) ""); cbn; intuition congruence. }
  rewrite Z0, J. split.
  - intros X i n N. apply bad_false. exact (X i n N).
  - intros X i n N. apply bad_false. exact (X i n N).
Qed.

(** And there it does: these flavors on these machines run no test and give 0. *)
Theorem C158_not_run : forall m opts out tests flavor,
  get_flavor opts "test_patch_files" = Some flavor ->
  ((flavor = "test_patch_startup" /\ In (arch m) ["aarch64"; "riscv64"; "loongarch64"]) \/
   (flavor = "test_patch_startup_ld_linux" /\
   (In (arch m) ["aarch64"; "riscv64"; "loongarch64"] \/ (up m = true /\ ucare m = false)))) ->
  main m opts out tests = Early 0.
Proof.
  intros m opts out tests fl G H. unfold main. rewrite G.
  assert (A : In (arch m) ["aarch64"; "riscv64"; "loongarch64"] ->
     one_of (arch m) ["aarch64"; "riscv64"; "loongarch64"] = true).
  { intros I. unfold one_of. apply existsb_exists. exists (arch m).
    split; [exact I|apply String.eqb_refl]. }
  destruct H as [[-> I]|[-> [I|[U C]]]].
  - rewrite (A I). reflexivity.
  - rewrite (A I). reflexivity.
  - rewrite U, C.
    destruct (one_of (arch m) ["aarch64"; "riscv64"; "loongarch64"]); reflexivity.
Qed.
Example C158_not_run_ex :
  get_flavor [OptF "test_patch_startup"] "test_patch_files" = Some "test_patch_startup"%string /\
  In (arch (mkMachine "aarch64" false true true true 0)) ["aarch64"; "riscv64"; "loongarch64"]%string.
Proof. split; [reflexivity|]. cbn. auto. Qed.

(** An option that is not known, wherever it stands, or a last [-f] with a flavor that
    there is not: no test is run and the status is 1. *)
Theorem C158_options : forall m opts out tests,
  In OptBad opts \/
  (exists before s others, opts = (before ++ OptF s :: others)%list /\
    (forall o, In o others -> o = OptOther) /\
    ~ In s ["test_patch_files"; "test_patch_dir"; "test_patch_startup";
            "test_patch_startup_ld_linux"; "test_unpatch_files"; "test_patch_patchlevel"]) ->
  main m opts out tests = Early 1.
Proof.
  intros m opts out tests H. unfold main.
  destruct (get_flavor opts "test_patch_files") as [fl|] eqn:G; [|reflexivity].
  destruct H as [B|(before & s & others & E & O & N)].
  - exfalso. revert G B. generalize "test_patch_files"%string.
    induction opts as [|o r IH]; intros d G B; [destruct B|].
    destruct B as [->|B]; [discriminate|].
    destruct o; cbn in G; [eapply IH; eassumption|eapply IH; eassumption|discriminate].
  - assert (fl = s).
    { subst opts. revert G. generalize "test_patch_files"%string.
      induction before as [|o r IH]; intros d; cbn.
      - revert s N. induction others as [|o r IH]; intros s N; cbn; [congruence|].
        rewrite (O o) by (left; reflexivity). apply IH; [|exact N].
        intros x X. apply O. right. exact X.
      - destruct o; [apply IH|apply IH|discriminate]. }
    subst fl. destruct (one_of s flavors) eqn:F; [|reflexivity].
    exfalso. apply N. unfold one_of in F. apply existsb_exists in F.
    destruct F as (y & I & E2). apply String.eqb_eq in E2. subst y. exact I.
Qed.

Example C158_options_ex :
  In OptBad [OptOther; OptBad; OptF "test_patch_files"] /\
  ~ In "test_patch"%string flavors.
Proof. split; [cbn; auto|]. cbn. intuition discriminate. Qed.

(** It ends without a summary and with 0 only for the two flavors of the start, on a
    machine where they are not run at all. *)
Theorem C158_early : forall m opts out tests,
  main m opts out tests = Early 0 ->
  exists flavor, get_flavor opts "test_patch_files" = Some flavor /\
  ((flavor = "test_patch_startup" /\ In (arch m) ["aarch64"; "riscv64"; "loongarch64"]) \/
   (flavor = "test_patch_startup_ld_linux" /\
   (In (arch m) ["aarch64"; "riscv64"; "loongarch64"] \/ ucare m = false))).
Proof.
  assert (O : forall x l, one_of x l = true <-> In x l).
  { intros x l. unfold one_of. rewrite existsb_exists. split.
    - intros (y & I & E). apply String.eqb_eq in E. subst. exact I.
    - intros I. exists x. split; [exact I|apply String.eqb_refl]. }
  intros m opts out tests. unfold main.
  destruct (get_flavor opts "test_patch_files") as [fl|]; [|discriminate].
  intros H. exists fl. split; [reflexivity|]. revert H. cbn zeta.
  destruct (negb (one_of fl flavors)); [discriminate|].
  destruct (one_of (arch m) _ && one_of fl _) eqn:E.
  { intros _. apply andb_true_iff in E. destruct E as [A B].
    apply O in A. apply O in B. destruct B as [B|[B|[]]]; subst; auto. }
  destruct (negb (up m)); [discriminate|].
  destruct ((fl =s "test_patch_startup_ld_linux") && negb (ucare m)) eqn:U.
  { intros _. apply andb_true_iff in U. destruct U as [A B].
    apply String.eqb_eq in A. destruct (ucare m); [discriminate|]. subst. auto. }
  destruct ((fl =s "test_patch_startup") && negb (ucare m) && negb (make_execve m =? 0)) eqn:M.
  { intros X. injection X as X. apply andb_true_iff in M. destruct M as [_ M].
    rewrite X in M. discriminate. }
  destruct (negb (up_end m)); discriminate.
Qed.

(** So the status alone does not say that anything was tested. *)
Theorem C158_nothing_run_refuted : exists m opts out tests,
  main m opts out tests = Early 0 /\
  In "simplest" tests /\
  forall i, check_result "simplest" (snd (out i)) <> 0.
Proof.
  exists (mkMachine "x86_64" false false true true 0),
    [OptF "test_patch_startup_ld_linux"],
    (fun _ => ([], ["Hello. This is an UNPATCHED version!"])), ["simplest"].
  split; [reflexivity|]. split; [left; reflexivity|]. intros i. vm_compute. discriminate.
Qed.

(** wait_file succeeds if and only if one of the sixty looks finds something, at the
    first that does, having slept once after each look before. *)
Theorem C158_wait : forall ready,
  (fst (wait_file ready) = 0 /\
  exists k, (k < 60)%nat /\ ready k = true /\
    (forall j, (j < k)%nat -> ready j = false) /\ snd (wait_file ready) = k) \/
  (wait_file ready = (1, 60%nat) /\ forall j, (j < 60)%nat -> ready j = false).
Proof.
  intros ready. unfold wait_file.
  destruct (wait_from_spec ready 60 0) as [(A & k & K & R & F & E)|(A & F)].
  - left. split; [exact A|]. exists k. split; [lia|]. split; [exact R|].
    split; [|exact E]. intros j J. apply F. lia.
  - right. split; [exact A|]. intros j J. apply F. lia.
Qed.

(** Non-vacuity: three tests of the default flavor, of which one fails and one is
    left out; the texts are those the programs print. *)
Example C158_case :
  let m := mkMachine "x86_64" false false true true 0 in
  let out i := match i with
               | O => ([], ["Hello from UNPATCHED binary"; "Hello from PATCHED binary";
                            "Hello from patched binary"])
               | 1%nat => ([], ["Hello from PATCHED"; "Hello. This is an UNPATCHED version!";
                            "Hello. This is an UNPATCHED version!"])
               | _ => ([], [])
               end in
  main m [] out ["ref_orig_single"; "ref_glibc"; "patchlevel"]
    = Summary 1 (mkCounts 1 1 1 3 "ref_glibc") /\
  check "test_unpatch_files" "ref_glibc" ["PATCHED"] ["PATCHED"; "UNPATCHED"; "UNPATCHED"] = 0 /\
  check "test_unpatch_files" "ref_glibc" ["PATCHED"] ["PATCHED"; "UNPATCHED"] = 1 /\
  wait_file (fun i => (3 <=? i)%nat) = (0, 3%nat).
Proof. vm_compute. repeat split. Qed.
Example C158_case_word : says_word "PATCHED" ["Hello (PATCHED)"].
Proof.
  exists "Hello (PATCHED)", "hello (", ")".
  split; [left; reflexivity|]. split; [reflexivity|]. right.
  exists "hello ", "("%char. split; reflexivity.
Qed.

Print Assumptions C158_patched.
Print Assumptions C158_kinds.
Print Assumptions C158_more_kinds.
Print Assumptions C158_silent_refuted.
Print Assumptions C158_unpatch.
Print Assumptions C158_skipped.
Print Assumptions C158_skipped_all.
Print Assumptions C158_patchlevel.
Print Assumptions C158_counts.
Print Assumptions C158_exit.
Print Assumptions C158_early.
Print Assumptions C158_options.
Print Assumptions C158_not_run.
Print Assumptions C158_nothing_run_refuted.
Print Assumptions C158_wait.
