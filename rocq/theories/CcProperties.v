(** The compiler wrapper. *)
From Coq Require Import ZArith List Bool String Sorted Lia.
From Verif Require Import Base BaseProofs StorageModel TextModel StripProofs CcModel CcSpec CcProofs CcRun CcMain CcWhole CcBuild CcFrame.
Import ListNotations.
Open Scope Z_scope.
Open Scope list_scope.

(** For the examples: an environment, a system where everything succeeds, one where the file of the original stage is
    missing, and the identity for realpath. *)
Definition env_of (l : list (text * text)) : env :=
  fun v => option_map snd (find (fun x => list_eqb (fst x) v) l).
Definition all_well : world := fun _ _ => 0.
Definition no_original : world := fun _ e => match e with Access _ => 2 | _ => 0 end.
Definition env1 (st : string) : list (text * text) := [(str "KPATCH_PATH", str "/k"); (str "KPATCH_STAGE", str st)].
Fixpoint args_of (cur s : text) : list text :=
  match s with [] => [cur] | c :: r => if c =? 32 then cur :: args_of [] r else args_of (cur ++ [c]) r end.
Definition run (w : world) (e : list (text * text)) (args : string) : out Z * hist :=
  kpcc w Some (env_of e) 4096 (str "gcc") (args_of [] (str args)).
Definition gcc : text := str "/usr/bin/gcc".

(** ** C99 *)
(** While the build is configured the real compiler replaces the wrapper, with the arguments the wrapper was given; also
    in the other stages when an argument names a file of a configure script. *)
Theorem C99_configuring w rp e addr prog args path sn real :
  e (str "KPATCH_PATH") = Some path -> e (str "KPATCH_STAGE") = Some sn ->
  In sn [str "original"; str "patched"; str "configure"] -> sn = str "configure" \/ probing (prog :: args) -> is_real e prog real ->
  trace (snd (kpcc w rp e addr prog args)) = [Exec real (real :: args)].
Proof.
  intros EP ES IS H R. pose proof (real_unique _ _ _ _ R (real_is prog e)). subst real.
  assert (SO : exists st, stage_of sn = Some st /\ (if looks_configure (prog :: args) then Configure else st) = Configure).
  { destruct H as [->|H].
    - exists Configure. split; [reflexivity|]. destruct (looks_configure _); reflexivity.
    - apply looks_ok in H. rewrite H. cbn [In] in IS. destruct IS as [<-|[<-|[<-|[]]]]; eexists; split; reflexivity. }
  destruct SO as (st & E1 & E2). unfold kpcc, init_conf. rewrite EP, ES, E1. cbv zeta. rewrite E2. cbn [obind].
  set (k := {| k_stage := Configure |}). assert (EI : init_args k args = Val (passed k args)) by reflexivity. rewrite EI. cbn [obind].
  rewrite (passed_run w rp k args). reflexivity.
Qed.
Print Assumptions C99_configuring.
Example C99_configuring_case : trace (snd (run all_well (env1 "original") "-c conftest.c")) = [Exec gcc [gcc; str "-c"; str "conftest.c"]].
Proof. vm_compute. reflexivity. Qed.

(** Without KPATCH_PATH, or with no known stage, nothing is run and the build fails. *)
Theorem C99_not_set_up w rp e addr prog args :
  e (str "KPATCH_PATH") = None \/ e (str "KPATCH_STAGE") = None \/
  (exists sn, e (str "KPATCH_STAGE") = Some sn /\ ~ In sn [str "original"; str "patched"; str "configure"]) ->
  kpcc w rp e addr prog args = (Exit 129, []).
Proof.
  intros H. assert (E : init_conf prog args e addr = Exit 129).
  { unfold init_conf. destruct (e (str "KPATCH_PATH")); [|reflexivity]. destruct H as [H|[H|(sn & H & N)]]; [discriminate|rewrite H; reflexivity|].
    rewrite H. destruct (stage_of sn) eqn:S; [|reflexivity]. apply stage_of_ok in S. exfalso. apply N. subst sn. destruct s; cbn [In]; tauto. }
  unfold kpcc. rewrite E. reflexivity.
Qed.
Print Assumptions C99_not_set_up.
Example C99_not_set_up_case : run all_well (env1 "orig") "-c a.c" = (Exit 129, []).
Proof. vm_compute. reflexivity. Qed.

(** A command line with nothing to patch: the real compiler, with the arguments as they are. *)
Theorem C99_nothing_to_patch w rp e addr prog ws k real :
  init_conf prog (spell_all ws) e addr = Val k -> k_stage k <> Configure -> Forall wd_ok ws -> nothing_to_patch k ws -> is_real e prog real ->
  trace (snd (kpcc w rp e addr prog (spell_all ws))) = [Exec real (real :: spell_all ws)].
Proof.
  intros EK NC K N R. pose proof (real_unique _ _ _ _ R (real_is prog e)). subst real. rewrite <- (init_conf_real _ _ _ _ _ EK).
  rewrite (kpcc_conf w rp e addr prog _ k _ EK (nothing_passed k ws NC K N)). rewrite (passed_run w rp k). reflexivity.
Qed.
Print Assumptions C99_nothing_to_patch.
Example C99_nothing_case : exists k, init_conf (str "gcc") (spell_all [WAct true; WIn (str "a.c"); WIn (str "b.c")]) (env_of (env1 "patched")) 4096 = Val k /\
  k_stage k = Patched /\ Forall wd_ok [WAct true; WIn (str "a.c"); WIn (str "b.c")] /\ nothing_to_patch k [WAct true; WIn (str "a.c"); WIn (str "b.c")].
Proof.
  eexists. split; [vm_compute; reflexivity|]. split; [reflexivity|]. split.
  - repeat (apply Forall_cons || apply Forall_nil); cbn [wd_ok]; auto; right; discriminate.
  - right. right. left. exists true. split; [reflexivity|cbn; lia].
Qed.

(** Whatever the arguments and the environment: if the wrapper hands over to another program, then that is the real
    compiler with the arguments unchanged, and nothing was done before. *)
Theorem C99_handed_over_unchanged w rp e addr prog args p a :
  In (Exec p a) (trace (snd (kpcc w rp e addr prog args))) ->
  is_real e prog p /\ a = p :: args /\ trace (snd (kpcc w rp e addr prog args)) = [Exec p a].
Proof.
  unfold kpcc. destruct (init_conf prog args e addr) as [k|rc|] eqn:EK; cbn [obind]; try (intros []).
  destruct (init_args k args) as [c|rc|] eqn:EC; cbn [obind]; try (intros []).
  assert (D : l_action c = APass \/ l_action c <> APass) by (destruct (l_action c); auto; right; discriminate).
  destruct D as [D|D].
  - rewrite (init_passed k args c EC D). rewrite (passed_run w rp k args). cbn. intros [E|[]]. inversion E; subst.
    rewrite (init_conf_real _ _ _ _ _ EK). split; [apply real_is|auto].
  - destruct (emulate_emits w rp k c D []) as (d & E1 & E2). rewrite E1, app_nil_r. unfold trace. intros I.
    apply in_map_iff in I. destruct I as (x & E & I). rewrite <- in_rev in I. rewrite Forall_forall in E2. specialize (E2 x I p a). contradiction.
Qed.
Print Assumptions C99_handed_over_unchanged.
Example C99_handed_over_case : trace (snd (run all_well (env1 "patched") "-E a.c -o a.i")) =
  [Exec gcc [gcc; str "-E"; str "a.c"; str "-o"; str "a.i"]].
Proof. vm_compute. reflexivity. Qed.

(** -D NAME in two words: NAME is taken for a second input file, so -c of one file is not patched. *)
Theorem C99_define_in_two_words_refuted : exists e name f o,
  e (str "KPATCH_STAGE") = Some (str "patched") /\ is_source f /\
  let args := [str "-D"; name; str "-c"; f; str "-o"; o] in
  trace (snd (kpcc all_well Some e 4096 (str "gcc") args)) = [Exec gcc (gcc :: args)].
Proof.
  exists (env_of (env1 "patched")), (str "NDEBUG"), (str "a.c"), (str "a.o"). split; [reflexivity|]. split.
  - exists (str "a"), (str "c"). split; [reflexivity|left; reflexivity].
  - vm_compute. reflexivity.
Qed.
Print Assumptions C99_define_in_two_words_refuted.
(** -Tscript in one word: the next word is skipped, the only input file is not seen and the program is not patched. *)
Theorem C99_joined_option_refuted : exists e script f o,
  e (str "KPATCH_STAGE") = Some (str "patched") /\ is_source f /\
  let args := [str "-T" ++ script; f; str "-o"; o] in
  trace (snd (kpcc all_well Some e 4096 (str "gcc") args)) = [Exec gcc (gcc :: args)].
Proof.
  exists (env_of (env1 "patched")), (str "x.ld"), (str "a.c"), (str "a"). split; [reflexivity|]. split.
  - exists (str "a"), (str "c"). split; [reflexivity|left; reflexivity].
  - vm_compute. reflexivity.
Qed.
Print Assumptions C99_joined_option_refuted.

(** ** C100 *)
(** One file is compiled (-c, or -S): the wrapper succeeds exactly when every program and system call it used did, and
    then it has done this: made the directories, made the assembler file with the real compiler (all options, -S), in the
    patched stage filtered it and the file of the original stage and made the patch of the two, and assembled the result
    to the output file (all options, -c). *)
Theorem C100_compile w rp e addr prog ws k f x o d b base r h :
  init_conf prog (spell_all ws) e addr = Val k -> k_stage k <> Configure -> Forall wd_ok ws -> words_ok k ws -> roles_kept k ws ->
  ins ws = [f] -> (length (langs ws) <= 1)%nat -> is_kind k ws f x -> out_is ws f (suffix_for x) o -> o <> str "/dev/null" ->
  in_dir o d b -> asm_base k rp d b = Some base -> (length o < path_max)%nat -> (length (asm_file k base) < path_max)%nat ->
  kpcc w rp e addr prog (spell_all ws) = (r, h) ->
  r <> Bad /\ (succeeds r <-> Forall fine h) /\
  (succeeds r -> exists found,
     trace h = dir_steps k base ++ [to_asm k ws x f (asm_file k base)] ++ stage_steps k base found ++ [to_output k ws x (ready k base) o] /\
     (k_stage k = Patched -> found_said base found h)).
Proof.
  intros EK NC K W RK EI LL KD OI ND ID AB LO LA ER.
  destruct (init_conf_stage _ _ _ _ _ EK) as (_ & _ & SN & _).
  destruct (init_single k ws f x o NC K EI LL KD OI ND) as (pa & pi & pl & EC & _).
  pose proof (single_runs w rp k ws f x o d b base _ NC SN K W RK EI LL KD OI ND ID LO AB LA EC []) as (dd & E1 & H).
  rewrite (kpcc_conf w rp e addr prog _ k _ EK EC) in ER. rewrite ER in E1, H. cbn [fst snd] in E1, H. rewrite app_nil_r in E1. subst dd.
  destruct r as [v|v|]; [|destruct H as [H1 H2]|destruct H].
  - split; [discriminate|]. unfold zero in H. destruct (Z.eqb_spec v 0) as [->|N].
    + destruct H as [F (found & D & FO)]. split; [split; [auto|reflexivity]|]. intros _. exists found. unfold trace.
      split; [exact D|]. intros S. specialize (FO S). unfold found_ok in FO. unfold found_said. rewrite <- in_rev in FO. exact FO.
    + assert (~ succeeds (Val v)) by (intros C; inversion C; contradiction). split; [tauto|tauto].
  - split; [discriminate|]. assert (~ succeeds (Exit v)) by (intros C; inversion C; contradiction). split; tauto.
Qed.
Print Assumptions C100_compile.

Definition ws1 : list wd := [WFlag (str "-O2"); WFlag (str "-g"); WTwo (str "-I") (str "inc"); WAct true; WIn (str "src/a.c"); WOut2 (str "obj/a.o")].
Ltac words := repeat (apply Forall_cons || apply Forall_nil); cbn [wd_ok]; auto; try (vm_compute; auto 10; fail); try (right; discriminate); try discriminate; try (unfold plain_flag; eexists _, _; split; [reflexivity|];
  repeat split; try (vm_compute; intuition discriminate); intros ? ? E; discriminate E).
Ltac sok := vm_compute; repeat (apply Forall_cons || apply Forall_nil); vm_compute; intuition discriminate.
Example C100_case : exists k base, init_conf (str "gcc") (spell_all ws1) (env_of (env1 "patched")) 4096 = Val k /\ k_stage k <> Configure /\
  Forall wd_ok ws1 /\ words_ok k ws1 /\ roles_kept k ws1 /\ ins ws1 = [str "src/a.c"] /\ is_kind k ws1 (str "src/a.c") KSource /\
  out_is ws1 (str "src/a.c") (str "o") (str "obj/a.o") /\ in_dir (str "obj/a.o") (str "obj") (str "a.o") /\
  asm_base k Some (str "obj") (str "a.o") = Some base /\ (length (str "obj/a.o") < path_max)%nat /\ (length (asm_file k base) < path_max)%nat /\
  trace (snd (kpcc all_well Some (env_of (env1 "patched")) 4096 (str "gcc") (spell_all ws1))) =
    [Run gcc [gcc; str "-O2"; str "-I"; str "inc"; str "-S"; str "src/a.c"; str "-o"; str "obj/.kpatch_a.o.patched.s"];
     Access (str "obj/.kpatch_a.o.original.s")] ++
    filter_steps k (str "obj/.kpatch_a.o.original.s") ++ filter_steps k (str "obj/.kpatch_a.o.patched.s") ++
    [Run (str "/k/kpatch_gensrc") [str "kpatch_gensrc"; str "--force-gotpcrel"; str "--os=rhel6"; str "-i"; str "obj/.kpatch_a.o.original.s"; str "-i";
       str "obj/.kpatch_a.o.patched.s"; str "-o"; str "obj/.kpatch_a.o.s.tmp"];
     Rename (str "obj/.kpatch_a.o.s.tmp") (str "obj/.kpatch_a.o.s");
     Run gcc [gcc; str "-O2"; str "-I"; str "inc"; str "-c"; str "obj/.kpatch_a.o.s"; str "-o"; str "obj/a.o"]].
Proof.
  eexists _, _. split; [vm_compute; reflexivity|]. split; [discriminate|]. split.
  { unfold ws1. words. }
  split.
  { split; [|split].
    - constructor; constructor.
    - sok.
    - sok. }
  split; [split; [reflexivity|split; [reflexivity|intros ? []]]|]. split; [reflexivity|]. split.
  { split; [reflexivity|]. left. exists (str "src/a"), (str "c"). split; [reflexivity|left; reflexivity]. }
  split; [left; exists []; reflexivity|]. split.
  { split; [discriminate|]. split; [vm_compute; intuition discriminate|]. right. split; [reflexivity|]. split; [discriminate|vm_compute; discriminate]. }
  split; [reflexivity|]. split; [apply Nat.ltb_lt; vm_compute; reflexivity|]. split; [apply Nat.ltb_lt; vm_compute; reflexivity|].
  vm_compute. reflexivity.
Qed.

(** What the environment says: where kpatch_gensrc is, the names of the assembler files and their directory, the arguments
    to append, those of the filter and of the patch, and whether assembler files are patched. *)
Theorem C100_configuration prog args e addr k : init_conf prog args e addr = Val k -> k_stage k <> Configure ->
  e (str "KPATCH_PATH") = Some (k_path k) /\ e (str "KPATCH_STAGE") = Some (k_stagename k) /\ is_real e prog (k_real k) /\
  k_prefix k = match e (str "KPATCH_PREFIX") with Some p => p | None => str ".kpatch_" end /\
  k_asmdir k = e (str "KPATCH_ASM_DIR") /\ (k_asm k = true <-> e (str "KPATCH_GENSRC_ASM") <> None) /\
  k_append k = from_list (e (str "KPCC_APPEND_ARGS")) [] /\
  k_dbg k = from_list (e (str "KPCC_DBGFILTER_ARGS"))
    [str "--dbg-filter"; str "--dbg-filter-eh-frame"; str "--dbg-filter-gcc-except-table"; str "--os=rhel6"] /\
  k_patch k = from_list (e (str "KPCC_PATCH_ARGS")) [str "--force-gotpcrel"; str "--os=rhel6"].
Proof.
  intros EK NC. destruct (init_conf_stage _ _ _ _ _ EK) as (S1 & _ & _ & S2 & _).
  split; [exact S2|]. split; [exact S1|]. split; [rewrite (init_conf_real _ _ _ _ _ EK); apply real_is|].
  clear S1 S2. unfold init_conf in EK. destruct (e (str "KPATCH_PATH")); [|discriminate]. destruct (e (str "KPATCH_STAGE")); [|discriminate].
  destruct (stage_of t0); [|discriminate]. cbv zeta in EK. destruct (if looks_configure (prog :: args) then Configure else s).
  3: { injection EK as <-. contradiction NC. reflexivity. }
  all: unfold obind in EK; destruct (env_remove e addr); try discriminate;
    destruct (env_list e (str "KPCC_APPEND_ARGS") _) eqn:E1; try discriminate; destruct (env_list e (str "KPCC_DBGFILTER_ARGS") _) eqn:E2; try discriminate;
    destruct (env_list e (str "KPCC_PATCH_ARGS") _) eqn:E3; try discriminate; apply env_list_words in E1, E2, E3;
    injection EK as <-; cbn [k_prefix k_asmdir k_asm k_append k_dbg k_patch].
  all: split; [reflexivity|]; split; [reflexivity|]; split; [|auto].
  all: destruct (e (str "KPATCH_GENSRC_ASM")); split; congruence.
Qed.
Print Assumptions C100_configuration.
Example C100_configuration_case : from_list (Some (str ";-a;;-b -c;")) [] = [str "-a"; str "-b -c"].
Proof. vm_compute. reflexivity. Qed.

(** Without -o the output is named after the source by its last letter alone: foo.cpp gives foo.cpo, not foo.o. *)
Theorem C100_default_name_refuted : exists e f, is_source f /\
  let h := snd (kpcc all_well Some e 4096 (str "gcc") [str "-c"; f]) in
  (exists args, last (trace h) (Mkdir []) = Run gcc (args ++ [str "-o"; str "foo.cpo"])) /\
  forall p args, ~ In (Run p (args ++ [str "-o"; str "foo.o"])) (trace h).
Proof.
  exists (env_of (env1 "original")), (str "foo.cpp"). split; [exists (str "foo"), (str "cpp"); split; [reflexivity|cbn; tauto]|].
  cbv zeta. split.
  - exists [gcc; str "-c"; str "./.kpatch_foo.cpo.original.s"]. vm_compute. reflexivity.
  - intros p args I.
    assert (E : trace (snd (kpcc all_well Some (env_of (env1 "original")) 4096 (str "gcc") [str "-c"; str "foo.cpp"])) =
      [Run gcc [gcc; str "-S"; str "foo.cpp"; str "-o"; str "./.kpatch_foo.cpo.original.s"];
       Run gcc [gcc; str "-c"; str "./.kpatch_foo.cpo.original.s"; str "-o"; str "foo.cpo"]]) by (vm_compute; reflexivity).
    apply (fun I => eq_ind _ (In (Run p (args ++ [str "-o"; str "foo.o"]))) I _ E) in I. clear E.
    destruct I as [I|[I|[]]]; apply (f_equal (fun x => match x with Run _ l => last l [] | _ => [] end)) in I;
      change (args ++ [str "-o"; str "foo.o"]) with (args ++ ([str "-o"] ++ [str "foo.o"])) in I; rewrite app_assoc in I;
      cbv beta iota in I; rewrite last_last in I; discriminate I.
Qed.
Print Assumptions C100_default_name_refuted.
(** A source without a suffix may be its own output: it is overwritten by the object file. *)
Theorem C100_source_overwritten_refuted : exists e f args1 args2,
  let h := snd (kpcc all_well Some e 4096 (str "gcc") [str "-x"; str "c"; str "-c"; f]) in
  trace h = [Run gcc (args1 ++ [f; str "-o"; str "./.kpatch_foo.original.s"]); Run gcc (args2 ++ [str "-o"; f])].
Proof.
  exists (env_of (env1 "original")), (str "foo"), [gcc; str "-x"; str "c"; str "-S"], [gcc; str "-x"; str "assembler"; str "-c"; str "./.kpatch_foo.original.s"].
  vm_compute. reflexivity.
Qed.
Print Assumptions C100_source_overwritten_refuted.
(** An assembler program on the standard input: a file with the name "-" is read instead. *)
Theorem C100_assembler_from_stdin_refuted : exists e,
  let h := snd (kpcc all_well Some e 4096 (str "gcc") [str "-x"; str "assembler"; str "-c"; str "-"; str "-o"; str "a.o"]) in
  hd (Mkdir []) (trace h) = Copy (str "-") (str "./.kpatch_a.o.original.s") /\
  forall p args, In (Run p args) (trace h) -> ~ In (str "-") args.
Proof.
  exists (env_of ((str "KPATCH_GENSRC_ASM", str "1") :: env1 "original")). cbv zeta.
  assert (E : trace (snd (kpcc all_well Some (env_of ((str "KPATCH_GENSRC_ASM", str "1") :: env1 "original")) 4096 (str "gcc")
     [str "-x"; str "assembler"; str "-c"; str "-"; str "-o"; str "a.o"])) =
    [Copy (str "-") (str "./.kpatch_a.o.original.s"); Run gcc [gcc; str "-x"; str "assembler"; str "-c"; str "./.kpatch_a.o.original.s"; str "-o"; str "a.o"]])
    by (vm_compute; reflexivity).
  rewrite E. split; [reflexivity|]. intros p args [I|[I|[]]]; [discriminate|]. injection I as <- <-. cbn [In]. intros C.
  repeat (destruct C as [C|C]; [discriminate C|]). destruct C.
Qed.
Print Assumptions C100_assembler_from_stdin_refuted.

(** ** C101 *)
(** With KPCC_REMOVE_ARGS not set the arguments are removed that are "-g", exactly these. *)
Theorem C101_default_removes_g prog args e addr k : init_conf prog args e addr = Val k -> e (str "KPCC_REMOVE_ARGS") = None ->
  k_stage k <> Configure ->
  k_remove k = [str "-g"] /\ (forall t, dropped k t = true <-> t = str "-g") /\
  (forall ws, Forall str_ok (spell_all ws) -> words_ok k ws).
Proof.
  intros EK ER NC. assert (E : k_remove k = [str "-g"]).
  { unfold init_conf in EK. destruct (e (str "KPATCH_PATH")); [|discriminate]. destruct (e (str "KPATCH_STAGE")); [|discriminate].
    destruct (stage_of t0); [|discriminate]. cbv zeta in EK. destruct (if looks_configure (prog :: args) then Configure else s).
    3: { inversion EK; subst. contradiction NC. reflexivity. }
    all: unfold env_remove in EK; rewrite ER in EK; unfold obind in EK;
      repeat (destruct (env_list e _ _); try discriminate); inversion EK; reflexivity. }
  split; [exact E|]. split.
  - intros t. unfold dropped. rewrite E. cbn [existsb]. rewrite orb_false_r, andb_true_iff, list_eqb_eq. split; [tauto|].
    intros ->. split; reflexivity.
  - intros ws F. unfold words_ok. rewrite E. split; [constructor; constructor|]. split; [|exact F]. sok.
Qed.
Print Assumptions C101_default_removes_g.
(** Whatever the list and its order: only options that are in the list are removed. *)
Theorem C101_only_listed_removed (rm : list text) (t : text) : Forall str_ok rm -> str_ok t -> cleared rm (Some t) = None -> In t rm /\ exists c r, t = 45 :: c :: r.
Proof.
  intros F O. unfold cleared. destruct (is_option t && removable rm t) eqn:E; [|discriminate]. intros _. apply andb_true_iff in E. destruct E as [E1 E2].
  split.
  - assert (B : forall fuel lo hi, bsearch fuel t rm lo hi = true -> In t rm); [|exact (B _ _ _ E2)].
    induction fuel as [|fuel IH]; intros lo hi; [discriminate|].
    cbn [bsearch]. cbv zeta. destruct (Nat.ltb lo hi); [|discriminate]. match goal with |- context[nth_error rm ?m] => destruct (nth_error rm m) as [x|] eqn:EX; [|discriminate] end.
    apply nth_error_In in EX. destruct (Z.ltb_spec (strcmp t x) 0); [apply IH|]. destruct (Z.ltb_spec 0 (strcmp t x)); [apply IH|]. intros _.
    rewrite Forall_forall in F. assert (t = x) as -> by (apply strcmp_eq; auto; lia). exact EX.
  - unfold is_option in E1. destruct t as [|c [|c' r]]; try discriminate; destruct c as [|c|c]; try discriminate; repeat (destruct c as [c|c|]; try discriminate). eauto.
Qed.
Print Assumptions C101_only_listed_removed.
Example C101_only_listed_case : cleared [str "-fb"; str "-fa"] (Some (str "-fa")) = None.
Proof. vm_compute. reflexivity. Qed.

(** The words of KPCC_REMOVE_ARGS in the order of strcmp, and the variable in memory so that its address has no zero in
    the lowest byte and crosses no multiple of 256: the search finds every word of the list.  Missing: other orders and
    addresses (see below). *)
Theorem C101_sorted_list_partial prog args e addr k s words : init_conf prog args e addr = Val k -> k_stage k <> Configure ->
  e (str "KPCC_REMOVE_ARGS") = Some s -> list_words s = words -> sorted_words words -> Forall str_ok words ->
  0 <= addr -> 0 < addr mod 256 -> addr mod 256 + Z.of_nat (length s) < 256 ->
  k_remove k = words /\ (forall t, str_ok t -> removable (k_remove k) t = true <-> In t words).
Proof.
  intros EK NC ER EW SW F P1 P2 P3. remember (pieces 0 0 [] s) as l eqn:EL. symmetry in EL.
  assert (E : env_remove e addr = Val (k_remove k)).
  { unfold init_conf in EK. destruct (e (str "KPATCH_PATH")); [|discriminate]. destruct (e (str "KPATCH_STAGE")); [|discriminate].
    destruct (stage_of t0); [|discriminate]. cbv zeta in EK. destruct (if looks_configure (prog :: args) then Configure else s0).
    3: { inversion EK; subst. contradiction NC. reflexivity. }
    all: unfold obind in EK; destruct (env_remove e addr); try discriminate;
      repeat (destruct (env_list e _ _); try discriminate); inversion EK; reflexivity. }
  unfold env_remove in E. rewrite ER in E. destruct (split_args s) as [l0| |] eqn:ES; try discriminate.
  pose proof (split_words _ _ ES) as EW'. rewrite EW in EW'. unfold split_args in ES. rewrite EL in ES. destruct (Nat.ltb 32 (length l)); [discriminate|].
  injection ES as <-. rewrite <- EW' in *. clear EW EW' words.
  injection E as E.
  assert (Q : forall l0 : list (nat * text), StronglySorted (fun a b => (fst a < fst b)%nat) l0 -> Forall (fun x => (fst x <= length s)%nat) l0 ->
    qsort (map (fun x => (addr + Z.of_nat (fst x), snd x)) l0) = map (fun x => (addr + Z.of_nat (fst x), snd x)) l0).
  { induction l0 as [|x l0 IH]; intros S B; [reflexivity|]. inversion S as [|? ? S1 S2]; subst. inversion B as [|? ? B1 B2]; subst. cbn [map qsort fold_right].
    fold (qsort (map (fun x => (addr + Z.of_nat (fst x), snd x)) l0)). rewrite IH by auto. destruct l0 as [|y l0]; [reflexivity|]. cbn [map insert fst].
    inversion S2 as [|? ? Hxy _]; subst. inversion B2 as [|? ? By _]; subst. cbv beta in Hxy, By.
    assert (ptr_cmp (addr + Z.of_nat (fst x)) (addr + Z.of_nat (fst y)) <= 0) as C.
    2: { apply Z.leb_le in C. rewrite C. reflexivity. }
    assert (LO : forall n, (n <= length s)%nat -> (addr + Z.of_nat n) mod 256 = addr mod 256 + Z.of_nat n /\ (addr + Z.of_nat n) / 256 = addr / 256).
    { intros n Hn. assert (addr + Z.of_nat n = addr / 256 * 256 + (addr mod 256 + Z.of_nat n)) as ->.
      { pose proof (Z.div_mod addr 256 ltac:(lia)). lia. }
      rewrite Z.add_comm, Z.mod_add, Z.div_add by lia. rewrite Z.mod_small, Z.div_small by lia. lia. }
    destruct (LO (fst x) ltac:(lia)) as [X1 X2]. destruct (LO (fst y) ltac:(lia)) as [Y1 Y2].
    unfold ptr_cmp. cbn [le_bytes]. rewrite X1, X2, Y1, Y2.
    cbn [upto0]. destruct (Z.eqb_spec (addr mod 256 + Z.of_nat (fst x)) 0); [lia|]. destruct (Z.eqb_spec (addr mod 256 + Z.of_nat (fst y)) 0); [lia|].
    cbn [strcmp]. destruct (Z.eqb_spec (addr mod 256 + Z.of_nat (fst x)) (addr mod 256 + Z.of_nat (fst y))); lia. }
  assert (PS : forall u off start cur, (start <= off)%nat -> (cur <> [] -> start < off)%nat ->
    StronglySorted (fun a b => (fst a < fst b)%nat) (pieces off start cur u) /\
    Forall (fun x => (start <= fst x <= off + length u)%nat) (pieces off start cur u)).
  { induction u as [|c u IH]; intros off start cur L1 L2; cbn [pieces].
    - destruct cur; [split; constructor|]. split; [repeat constructor|]. constructor; [cbn; lia|constructor].
    - cbn [length]. destruct (c =? 59).
      + destruct (IH (S off) (S off) [] ltac:(lia) ltac:(intros H; contradiction)) as [I1 I2].
        assert (I3 : Forall (fun x => (start <= fst x <= off + S (length u))%nat) (pieces (S off) (S off) [] u)).
        { eapply Forall_impl; [|exact I2]. cbn. intros. lia. }
        destruct cur as [|c0 cur]; [split; auto|]. split.
        * constructor; auto. eapply Forall_impl; [|exact I2]. cbn. intros. lia.
        * constructor; auto. cbn. lia.
      + destruct (IH (S off) start (cur ++ [c]) ltac:(lia) ltac:(intros; lia)) as [I1 I2]. split; auto.
        eapply Forall_impl; [|exact I2]. cbn. intros. lia. }
  destruct (PS s 0%nat 0%nat [] ltac:(lia) ltac:(intros H; contradiction)) as [S1 S2]. rewrite EL in S1, S2.
  rewrite Q in E; auto.
  2: { eapply Forall_impl; [|exact S2]. cbn. intros. lia. }
  rewrite map_map in E. cbn [snd] in E. split; [symmetry; exact E|]. intros t O. rewrite <- E.
  rewrite removable_ok by auto. rewrite existsb_exists. split.
  - intros (x & I & H). apply list_eqb_eq in H. subst. exact I.
  - intros I. exists t. split; auto. apply list_eqb_eq. reflexivity.
Qed.
Print Assumptions C101_sorted_list_partial.
Example C101_sorted_case : exists k, init_conf (str "gcc") [str "-c"] (env_of ((str "KPCC_REMOVE_ARGS", str "-fa;-fb;-g") :: env1 "patched")) 4097 = Val k /\
  list_words (str "-fa;-fb;-g") = [str "-fa"; str "-fb"; str "-g"] /\ sorted_words [str "-fa"; str "-fb"; str "-g"] /\ k_remove k = [str "-fa"; str "-fb"; str "-g"].
Proof.
  eexists. split; [vm_compute; reflexivity|]. split; [vm_compute; reflexivity|]. split; [|reflexivity].
  repeat (apply SSorted_cons || apply SSorted_nil || apply Forall_cons || apply Forall_nil); vm_compute; discriminate.
Qed.
(** The list is sorted by the bytes of the pointers, not by the words: an argument in the list stays. *)
Theorem C101_listed_argument_stays_refuted : exists e s t,
  e (str "KPCC_REMOVE_ARGS") = Some s /\ In t (list_words s) /\
  exists args, In (Run gcc args) (trace (snd (kpcc all_well Some e 4097 (str "gcc") [str "-c"; t; str "a.c"]))) /\ In t args.
Proof.
  exists (env_of ((str "KPCC_REMOVE_ARGS", str "-fb;-fa") :: env1 "original")), (str "-fb;-fa"), (str "-fb").
  split; [reflexivity|]. split; [left; reflexivity|].
  exists [gcc; str "-S"; str "-fb"; str "a.c"; str "-o"; str "./.kpatch_a.o.original.s"]. split.
  { assert (E : trace (snd (kpcc all_well Some (env_of ((str "KPCC_REMOVE_ARGS", str "-fb;-fa") :: env1 "original")) 4097 (str "gcc") [str "-c"; str "-fb"; str "a.c"])) =
      [Run gcc [gcc; str "-S"; str "-fb"; str "a.c"; str "-o"; str "./.kpatch_a.o.original.s"];
       Run gcc [gcc; str "-c"; str "-fb"; str "./.kpatch_a.o.original.s"; str "-o"; str "a.o"]]) by (vm_compute; reflexivity).
    refine (eq_ind_r (In _) _ E). left. reflexivity. }
  right. right. left. reflexivity.
Qed.
Print Assumptions C101_listed_argument_stays_refuted.

(** ** C102 *)
(** Whatever the command line and the answers of the system: a program or call that fails is the last one; and the
    wrapper reports success only if none failed. *)
Theorem C102_failure_ends_the_build w rp e addr prog args r h : kpcc w rp e addr prog args = (r, h) ->
  Forall fine (tl h) /\ (succeeds r -> Forall fine h).
Proof.
  unfold kpcc. destruct (init_conf prog args e addr) as [k|rc|] eqn:EK; cbn [obind].
  2, 3: intros E; inversion E; split; constructor.
  destruct (init_args k args) as [c|rc|] eqn:EC; cbn [obind].
  2, 3: intros E; inversion E; split; constructor.
  intros ER. destruct (emulate_cc_steps w rp k c (init_args_action k args c EC) []) as (d & E1 & H). rewrite ER in E1, H. cbn [fst snd] in E1, H.
  rewrite app_nil_r in E1. subst d. destruct r as [v|v|].
  - unfold zero in H. destruct (Z.eqb_spec v 0) as [->|N].
    + split; [|auto]. destruct h; [constructor|]. inversion H; auto.
    + destruct H as (x & d' & -> & _ & F). split; [exact F|]. intros C. inversion C. contradiction.
  - destruct H as [N F]. split; [exact F|]. intros C. inversion C. contradiction.
  - split; [|intros C; discriminate C]. destruct h; [constructor|]. inversion H; auto.
Qed.
Print Assumptions C102_failure_ends_the_build.
Example C102_case : let w := fun (_ : hist) e => match e with Run p _ => if list_eqb p (str "/k/kpatch_gensrc") then 256 else 0 | _ => 0 end in
  fst (run w (env1 "patched") "-c a.c") = Val 1 /\ length (snd (run w (env1 "patched") "-c a.c")) = 3%nat.
Proof. vm_compute. auto. Qed.
(** A compiler that is killed by a signal counts as one that succeeded: the rest is run and success is reported. *)
Theorem C102_killed_tool_refuted : exists w e h r args, kpcc w Some e 4096 (str "gcc") [str "-c"; str "a.c"] = (r, h) /\
  In (Run gcc args, 9) h /\ succeeds r.
Proof.
  exists (fun _ e => match e with Run _ _ => 9 | _ => 0 end), (env_of (env1 "original")).
  eexists _, _, [gcc; str "-c"; str "./.kpatch_a.o.original.s"; str "-o"; str "a.o"]. split; [vm_compute; reflexivity|]. split; [left; reflexivity|reflexivity].
Qed.
Print Assumptions C102_killed_tool_refuted.

(** ** C103 *)
(** The same compilation in the two stages: the patched stage asks for, filters and compares the very file that the
    original stage made. *)
Theorem C103_stages_pair_up w1 w2 rp e1 e2 addr1 addr2 prog ws k1 k2 f o d b base r1 h1 r2 h2 :
  init_conf prog (spell_all ws) e1 addr1 = Val k1 -> init_conf prog (spell_all ws) e2 addr2 = Val k2 ->
  k_stage k1 = Original -> k_stage k2 = Patched -> k_prefix k1 = k_prefix k2 -> k_asmdir k1 = k_asmdir k2 ->
  Forall wd_ok ws -> words_ok k1 ws -> words_ok k2 ws -> roles_kept k1 ws -> roles_kept k2 ws ->
  ins ws = [f] -> (length (langs ws) <= 1)%nat -> is_kind k1 ws f KSource -> out_is ws f (str "o") o -> o <> str "/dev/null" ->
  in_dir o d b -> asm_base k1 rp d b = Some base -> (length o < path_max)%nat -> (length base + 11 < path_max)%nat ->
  kpcc w1 rp e1 addr1 prog (spell_all ws) = (r1, h1) -> kpcc w2 rp e2 addr2 prog (spell_all ws) = (r2, h2) ->
  succeeds r1 -> succeeds r2 ->
  exists file args1 found, In (Run (k_real k1) (args1 ++ [str "-o"; file])) (trace h1) /\ In (Access file) (trace h2) /\
    found_said base found h2 /\
    (found = true -> exists args2 rest, In (gensrc k2 (args2 ++ [str "-i"; file; str "-i"] ++ rest)) (trace h2)).
Proof.
  intros K1 K2 S1 S2 EP ED KW W1 W2 R1 R2 EI LL KD OI ND ID AB LO LB E1 E2 SU1 SU2.
  destruct (init_conf_stage _ _ _ _ _ K1) as (_ & N1 & _). destruct (init_conf_stage _ _ _ _ _ K2) as (_ & _ & N2 & _).
  specialize (N1 S1). specialize (N2 S2).
  assert (L1 : length (asm_file k1 base) = (length base + 11)%nat) by (unfold asm_file; rewrite N1, !app_length; reflexivity).
  assert (L2 : length (asm_file k2 base) = (length base + 10)%nat) by (unfold asm_file; rewrite N2, !app_length; reflexivity).
  assert (AB2 : asm_base k2 rp d b = Some base) by (unfold asm_base in *; rewrite <- EP, <- ED; exact AB).
  assert (NC1 : k_stage k1 <> Configure) by congruence. assert (NC2 : k_stage k2 <> Configure) by congruence.
  destruct (C100_compile w1 rp e1 addr1 prog ws k1 f KSource o d b base r1 h1) as (_ & _ & T1); auto; [lia|].
  destruct (C100_compile w2 rp e2 addr2 prog ws k2 f KSource o d b base r2 h2) as (_ & _ & T2); auto; [lia|].
  destruct (T1 SU1) as (fd1 & TR1 & _). destruct (T2 SU2) as (found & TR2 & FS). specialize (FS S2).
  exists (base ++ str ".original.s"). eexists. exists found. split; [|split; [|split; [exact FS|]]].
  - rewrite TR1. apply in_or_app. right. left. cbn [to_asm]. unfold command.
    assert (asm_file k1 base = base ++ str ".original.s") as -> by (unfold asm_file; rewrite N1; reflexivity).
    rewrite (app_assoc (map _ _)), app_comm_cons. reflexivity.
  - rewrite TR2. apply in_or_app. right. apply in_or_app. right. apply in_or_app. left. unfold stage_steps. rewrite S2. left. reflexivity.
  - intros ->. unfold stage_steps in TR2. rewrite S2 in TR2. unfold patch_steps in TR2. cbv zeta in TR2. exists (k_patch k2). eexists.
    rewrite TR2. apply in_or_app. right. apply in_or_app. right. apply in_or_app. left. apply in_or_app. right. apply in_or_app. right. apply in_or_app. right.
    left. cbn [app]. reflexivity.
Qed.
Print Assumptions C103_stages_pair_up.
Example C103_case : In (Run gcc [gcc; str "-S"; str "a.c"; str "-o"; str "./.kpatch_a.o.original.s"]) (trace (snd (run all_well (env1 "original") "-c a.c"))) /\
  In (Access (str "./.kpatch_a.o.original.s")) (trace (snd (run all_well (env1 "patched") "-c a.c"))) /\
  succeeds (fst (run all_well (env1 "original") "-c a.c")) /\ succeeds (fst (run all_well (env1 "patched") "-c a.c")).
Proof. vm_compute. auto 10. Qed.

(** Different outputs have different assembler files, when the prefix has no slash. *)
Theorem C103_one_file_each k rp o1 o2 d1 b1 d2 b2 base : k_asmdir k = None -> ~ In 47 (k_prefix k) ->
  in_dir o1 d1 b1 -> in_dir o2 d2 b2 -> asm_base k rp d1 b1 = Some base -> asm_base k rp d2 b2 = Some base -> d1 = d2 /\ b1 = b2.
Proof.
  intros EA NP (NB1 & NS1 & _) (NB2 & NS2 & _) A1 A2. unfold asm_base in *. rewrite EA in *.
  assert (E : d1 ++ 47 :: (k_prefix k ++ b1) = d2 ++ 47 :: (k_prefix k ++ b2)) by (change (d1 ++ str "/" ++ k_prefix k ++ b1 = d2 ++ str "/" ++ k_prefix k ++ b2); congruence).
  assert (N1 : ~ In 47 (k_prefix k ++ b1)) by (rewrite in_app_iff; tauto).
  assert (N2 : ~ In 47 (k_prefix k ++ b2)) by (rewrite in_app_iff; tauto).
  assert (T : k_prefix k ++ b1 = k_prefix k ++ b2).
  { pose proof (after_found 47 d1 _ N1) as F1. pose proof (after_found 47 d2 _ N2) as F2. unfold text in *. rewrite E in F1. congruence. }
  split; [|apply app_inv_head in T; exact T]. rewrite T in E. apply app_inv_tail in E. exact E.
Qed.
Print Assumptions C103_one_file_each.
Example C103_one_file_case : in_dir (str "x/a.o") (str "x") (str "a.o") /\ in_dir (str "a.o") (str ".") (str "a.o").
Proof.
  split; (split; [discriminate|]; split; [vm_compute; intuition discriminate|]).
  - right. split; [reflexivity|]. split; [discriminate|vm_compute; discriminate].
  - left. split; reflexivity.
Qed.
(** Output files in the root directory all share one assembler file. *)
Theorem C103_root_directory_refuted : exists e asm, forall o, In o [str "/a.o"; str "/b.o"] -> exists args,
  hd (Mkdir []) (trace (snd (kpcc all_well Some e 4096 (str "gcc") [str "-c"; str "a.c"; str "-o"; o]))) = Run gcc (args ++ [str "-o"; asm]).
Proof.
  exists (env_of (env1 "original")), (str "//.kpatch_.original.s"). intros o [<-|[<-|[]]]; exists [gcc; str "-S"; str "a.c"]; vm_compute; reflexivity.
Qed.
Print Assumptions C103_root_directory_refuted.
(** The assembler file of x in the original stage is the result of the patched stage for x.original. *)
Theorem C103_original_overwritten_refuted : exists e1 e2 file args tmp,
  e1 (str "KPATCH_STAGE") = Some (str "original") /\ e2 (str "KPATCH_STAGE") = Some (str "patched") /\
  hd (Mkdir []) (trace (snd (kpcc all_well Some e1 4096 (str "gcc") [str "-c"; str "x.c"; str "-o"; str "x"]))) = Run gcc (args ++ [str "-o"; file]) /\
  nth 7 (trace (snd (kpcc all_well Some e2 4096 (str "gcc") [str "-c"; str "x.c"; str "-o"; str "x.original"]))) (Mkdir []) = Rename tmp file.
Proof.
  exists (env_of (env1 "original")), (env_of (env1 "patched")), (str "./.kpatch_x.original.s"), [gcc; str "-S"; str "x.c"], (str "./.kpatch_x.original.s.tmp").
  split; [reflexivity|]. split; [reflexivity|]. split; vm_compute; reflexivity.
Qed.
Print Assumptions C103_original_overwritten_refuted.

(** ** C104 *)
(** A program or library is built from several files, with -o: the wrapper succeeds exactly when every program and
    system call it used did; then for each source file in order its assembler file was made with all options, in the
    patched stage the patch was made from it, and the last command is that of the user with each source file replaced by
    the result and every other word in its place.  At most as many arguments are appended as words are dropped (-o and
    its argument are). *)
Theorem C104_build w rp e addr prog ws k ps o l r h :
  init_conf prog (spell_all ws) e addr = Val k -> k_stage k <> Configure -> Forall wd_ok ws -> words_ok k ws ->
  map p_file ps = ins ws -> ps <> [] -> acts ws = [] -> outs ws = l ++ [o] -> o <> str "/dev/null" ->
  (length (line k ws) + length (k_append k) <= length (spell_all ws))%nat -> Forall (part_ok k rp) ps ->
  kpcc w rp e addr prog (spell_all ws) = (r, h) ->
  r <> Bad /\ (succeeds r <-> Forall fine h) /\
  (succeeds r -> exists founds, length founds = length ps /\
     trace h = build_steps k ws ps founds ++ [Run (k_real k) (build_command k ws ps o)] /\
     (k_stage k = Patched -> forall p found, In (p, found) (combine ps founds) -> p_kind p <> PKeep -> found_said (p_base p) found h)).
Proof.
  intros EK NC K W EP NP EA EO ND LL PO ER.
  destruct (init_conf_stage _ _ _ _ _ EK) as (_ & _ & SN & _).
  assert (NI : ins ws <> []) by (rewrite <- EP; destruct ps; [contradiction|discriminate]).
  destruct (init_multi k ws o l NC K NI EA EO ND) as (pi & pl & EC).
  pose proof (build_runs w rp k ws ps o l _ NC SN K W EP NP EA EO ND LL PO EC []) as (dd & E1 & H).
  rewrite (kpcc_conf w rp e addr prog _ k _ EK EC) in ER. rewrite ER in E1, H. cbn [fst snd] in E1, H. rewrite app_nil_r in E1. subst dd.
  destruct r as [v|v|]; [|destruct H as [H1 H2]|destruct H].
  - split; [discriminate|]. unfold zero in H. destruct (Z.eqb_spec v 0) as [->|N].
    + destruct H as [F (founds & D & LF & FO)]. split; [split; [auto|reflexivity]|]. intros _. exists founds. split; [exact LF|]. unfold trace.
      split; [exact D|]. intros S p fd I NK. specialize (FO S p fd I NK). unfold found_said in *. rewrite <- in_rev in FO. exact FO.
    + assert (~ succeeds (Val v)) by (intros C; inversion C; contradiction). split; [tauto|tauto].
  - split; [discriminate|]. assert (~ succeeds (Exit v)) by (intros C; inversion C; contradiction). split; tauto.
Qed.
Print Assumptions C104_build.

Definition ws2 : list wd := [WFlag (str "-g"); WIn (str "a.c"); WFlag (str "-O2"); WIn (str "lib/b.o"); WOut2 (str "prog"); WIn (str "c.cpp")].
Definition ps2 : list part :=
  [ {| p_file := str "a.c"; p_kind := PSource; p_base := str "./.kpatch_a.c" |};
    {| p_file := str "lib/b.o"; p_kind := PKeep; p_base := str "lib/.kpatch_b.o" |};
    {| p_file := str "c.cpp"; p_kind := PSource; p_base := str "./.kpatch_c.cpp" |} ].
Example C104_case : exists k, init_conf (str "gcc") (spell_all ws2) (env_of (env1 "original")) 4096 = Val k /\ k_stage k <> Configure /\
  Forall wd_ok ws2 /\ words_ok k ws2 /\ map p_file ps2 = ins ws2 /\ acts ws2 = [] /\ outs ws2 = [] ++ [str "prog"] /\
  (length (line k ws2) + length (k_append k) <= length (spell_all ws2))%nat /\ Forall (part_ok k Some) ps2 /\
  trace (snd (kpcc all_well Some (env_of (env1 "original")) 4096 (str "gcc") (spell_all ws2))) =
    [Run gcc [gcc; str "-O2"; str "-S"; str "a.c"; str "-o"; str "./.kpatch_a.c.original.s"];
     Run gcc [gcc; str "-O2"; str "-S"; str "c.cpp"; str "-o"; str "./.kpatch_c.cpp.original.s"];
     Run gcc [gcc; str "./.kpatch_a.c.original.s"; str "-O2"; str "lib/b.o"; str "./.kpatch_c.cpp.original.s"; str "-o"; str "prog"]].
Proof.
  eexists. split; [vm_compute; reflexivity|]. split; [discriminate|]. split; [unfold ws2; words|]. split.
  { split; [|split]; [constructor; constructor|sok|sok]. }
  split; [reflexivity|]. split; [reflexivity|]. split; [reflexivity|]. split; [vm_compute; lia|]. split; [|vm_compute; reflexivity].
  unfold ps2. repeat (apply Forall_cons || apply Forall_nil).
  - split; [exists (str "."), (str "a.c")|split; [apply Nat.ltb_lt; vm_compute; reflexivity|split; [apply Nat.ltb_lt; vm_compute; reflexivity|]]].
    + split; [|reflexivity]. split; [discriminate|]. split; [vm_compute; intuition discriminate|]. left. split; reflexivity.
    + exists (str "a"), (str "c"). split; [reflexivity|left; reflexivity].
  - split; [exists (str "lib"), (str "b.o")|split; [apply Nat.ltb_lt; vm_compute; reflexivity|split; [apply Nat.ltb_lt; vm_compute; reflexivity|]]].
    + split; [|reflexivity]. split; [discriminate|]. split; [vm_compute; intuition discriminate|]. right. split; [reflexivity|]. split; [discriminate|vm_compute; discriminate].
    + left. exists (str "lib/b"), (str "o"). split; [reflexivity|left; reflexivity].
  - split; [exists (str "."), (str "c.cpp")|split; [apply Nat.ltb_lt; vm_compute; reflexivity|split; [apply Nat.ltb_lt; vm_compute; reflexivity|]]].
    + split; [|reflexivity]. split; [discriminate|]. split; [vm_compute; intuition discriminate|]. left. split; reflexivity.
    + exists (str "c"), (str "cpp"). split; [reflexivity|right; right; left; reflexivity].
Qed.

(** More appended arguments than dropped words: the list of input files is read outside its bounds. *)
Theorem C104_appended_arguments_refuted : exists e ws, Forall wd_ok ws /\ acts ws = [] /\ ins ws = [str "a.c"] /\ outs ws = [str "a"] /\
  fst (kpcc all_well Some e 4096 (str "gcc") (spell_all ws)) = Bad.
Proof.
  exists (env_of ((str "KPCC_APPEND_ARGS", str "-fa;-fb") :: env1 "original")), [WIn (str "a.c"); WOut1 (str "a")].
  split; [words|]. split; [reflexivity|]. split; [reflexivity|]. split; [reflexivity|]. vm_compute. reflexivity.
Qed.
Print Assumptions C104_appended_arguments_refuted.
(** A source file with the suffix .cc counts as an object file: the program is built without the patch. *)
Theorem C104_cc_suffix_refuted : exists e, e (str "KPATCH_STAGE") = Some (str "patched") /\
  trace (snd (kpcc all_well Some e 4096 (str "g++") [str "a.cc"; str "-o"; str "a"])) = [Run (str "/usr/bin/g++") [str "/usr/bin/g++"; str "a.cc"; str "-o"; str "a"]].
Proof. exists (env_of (env1 "patched")). split; [reflexivity|]. vm_compute. reflexivity. Qed.
Print Assumptions C104_cc_suffix_refuted.
(** -x c stays before the assembler file in the last command: the compiler reads assembler as C. *)
Theorem C104_language_kept_refuted : exists e args1,
  trace (snd (kpcc all_well Some e 4096 (str "gcc") [str "-x"; str "c"; str "a.c"; str "-o"; str "a"])) =
  [Run gcc args1; Run gcc [gcc; str "-x"; str "c"; str "./.kpatch_a.c.original.s"; str "-o"; str "a"]].
Proof. exists (env_of (env1 "original")). eexists. vm_compute. reflexivity. Qed.
Print Assumptions C104_language_kept_refuted.
(** /dev/null as an input file is replaced by an assembler file that nothing made. *)
Theorem C104_null_input_refuted : exists e,
  trace (snd (kpcc all_well Some e 4096 (str "gcc") [str "-xc"; str "/dev/null"; str "-o"; str "a"])) =
  [Run gcc [gcc; str "-xc"; str "/dev/.kpatch_null.original.s"; str "-o"; str "a"]].
Proof. exists (env_of (env1 "original")). vm_compute. reflexivity. Qed.
Print Assumptions C104_null_input_refuted.
