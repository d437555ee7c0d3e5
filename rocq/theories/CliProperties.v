(** C51, C52, C80, C81: the command line. *)
From Coq Require Import String.
From Verif Require Import Base BaseProofs StorageModel CliModel CliSpec CliProofs.
Open Scope list_scope.

(** C51. With [-p all] each eligible process is visited exactly once, provided no attempt
    answers -2. *)
Theorem C51_visits_each_once_partial : forall self exe cb names,
  (forall k n, cb k n <> -2) -> Forall proc_name names -> NoDup names ->
  let visited := snd (processes_do self exe cb (-1) (Some names)) in
  NoDup visited /\ forall n, In n visited <-> eligible self exe names n.
Proof.
  intros self exe cb names C F D visited. split.
  - apply do_entries_nodup; assumption.
  - apply do_entries_in; assumption.
Qed.
(** The result is failure exactly if one attempt failed (the i-th attempt, for the i-th
    process visited). *)
Theorem C51_result : forall self exe cb names,
  let '(r, visited) := processes_do self exe cb (-1) (Some names) in
  (r = 0 \/ r = -1) /\ (r = -1 <-> exists i n, nth_error visited i = Some n /\ cb i n < 0).
Proof.
  intros self exe cb names. pose proof (do_entries_ret self exe cb names O 0 (or_introl eq_refl)) as H.
  unfold processes_do. change (negb (-1 =? -1)) with false. cbn iota.
  destruct (do_entries self exe cb 0 0 names) as [r l]. destruct H as [A B]. split; [exact A|].
  rewrite B. split.
  - intros [H|H]; [discriminate|exact H].
  - auto.
Qed.
(** One process: the attempt is for it alone, its result is returned. *)
Theorem C51_one_process : forall self exe cb pid proc, pid <> -1 ->
  processes_do self exe cb pid proc = (cb O pid, [pid]).
Proof. intros self exe cb pid proc N. unfold processes_do. replace (pid =? -1) with false by lia. reflexivity. Qed.
Example C51_listing :
  processes_do 77 (fun n => negb (n =? 12)) (fun _ n => if n =? 300 then -1 else 0) (-1)
    (Some [str "."; str ".."; str "1"; str "12"; str "13"; str "77"; str "300"; str "4000"; str "self"; str "sys"])
  = (-1, [13; 300; 4000]).
Proof. vm_compute. reflexivity. Qed.
(** An attempt that answers -2 ends the visit: eligible processes are left out. *)
Theorem C51_stop_refuted : exists self exe cb names n,
  Forall proc_name names /\ NoDup names /\ eligible self exe names n /\
  ~ In n (snd (processes_do self exe cb (-1) (Some names))).
Proof.
  exists 7, (fun _ => true), (fun _ _ => -2), [str "20"; str "30"], 30.
  assert (N : forall a b, 49 <= a <= 57 -> 48 <= b <= 57 -> numeral [a; b] (10 * (a - 48) + (b - 48))).
  { intros a b A B. split; [discriminate|]. split; [repeat constructor; lia|]. split; [unfold value; cbn; lia|].
    cbn. lia. }
  split; [|split; [|split]].
  - constructor; [right; exists 20; split; [apply (N 50 48); lia|lia]|].
    constructor; [right; exists 30; split; [apply (N 51 48); lia|lia]|constructor].
  - repeat constructor; cbn; intuition discriminate.
  - split; [exists (str "30"); split; [right; left; reflexivity|apply (N 51 48); lia]|].
    repeat (split; [lia|]). reflexivity.
  - vm_compute. intuition discriminate.
Qed.

(** C52. An unknown command, and too few arguments, are failures; nothing is run. *)
Theorem C52_unknown_command_fails : forall run cmd args,
  ~ In cmd (map str ["patch"; "patch-user"; "unpatch"; "unpatch-user"; "info"; "info-user"]%string) ->
  execute_cmd run cmd args = -1.
Proof.
  intros run cmd args N. unfold execute_cmd, parse_cmd, command_of.
  assert (E : forall s, In s (map str ["patch"; "patch-user"; "unpatch"; "unpatch-user"; "info"; "info-user"]%string) ->
    list_eqb cmd s = false).
  { intros s I. destruct (list_eqb cmd s) eqn:E; [|reflexivity]. apply list_eqb_eq in E. subst. contradiction. }
  rewrite !E by (cbn; auto 12). reflexivity.
Qed.
Theorem C52_too_few_arguments_fail : forall run cmd args,
  In cmd (map str ["patch"; "patch-user"; "unpatch"; "unpatch-user"]%string) -> zlen args < 3 ->
  execute_cmd run cmd args = -1.
Proof.
  intros run cmd args I L. unfold execute_cmd, parse_cmd.
  assert (E : command_of cmd = Some CPatch \/ command_of cmd = Some CUnpatch).
  { cbn in I. destruct I as [<-|[<-|[<-|[<-|[]]]]]; vm_compute; auto. }
  destruct E as [-> | ->]; unfold cmd_patch, cmd_unpatch; replace (zlen args <? 3) with true by lia; reflexivity.
Qed.
(** An unknown option: nothing is run (the result does not depend on what running does). *)
Theorem C52_unknown_option_runs_nothing : forall run opts c t rest,
  Forall (fun o => u_letter o = ch_p /\ (u_joined o = true -> u_arg o <> [])) opts ->
  ~ In c [ch_h; ch_p; ch_v; ch_i; 45] ->
  let args := flat_map words opts ++ (45 :: c :: t) :: rest in
  3 <= zlen args ->
  (c <> 115 -> c <> 114 -> execute_cmd run (str "patch") args = 0) /\
  execute_cmd run (str "unpatch") args = 0 /\ execute_cmd run (str "info") args = 0.
Proof.
  intros run opts c t rest F N args L.
  assert (Q : c = 45 -> t <> []) by (intros ->; exfalso; apply N; cbn; auto 12).
  assert (U : forall l, In ch_p l -> Forall (uopt_ok l) opts).
  { intros l Hl. eapply Forall_impl; [|exact F]. intros o [E J]. split; [rewrite E; exact Hl|exact J]. }
  assert (H : forall l, In ch_p l -> Forall (fun o => In (u_letter o) l /\ (u_letter o = ch_p \/ u_letter o = ch_i)) opts).
  { intros l Hl. eapply Forall_impl; [|exact F]. intros o [E J]. rewrite E. auto. }
  unfold execute_cmd, parse_cmd. split; [|split].
  - intros N1 N2. change (command_of (str "patch")) with (Some CPatch). cbn iota. unfold cmd_patch.
    replace (zlen args <? 3) with false by lia.
    destruct (getopt_unknown {| g_flags := [104; 115]; g_args := [112; 114] |} c t rest opts) as (b & es & ops & E).
    + cbn. intuition discriminate.
    + apply U. cbn. auto.
    + cbn. intros [X|[X|[]]]; [apply N; subst c; cbn; auto 12|congruence].
    + cbn. intros [X|[X|[]]]; [apply N; subst c; cbn; auto 12|congruence].
    + exact Q.
    + unfold args. rewrite E, opt_loop_stop; [reflexivity| | |apply H]; cbn; intuition discriminate.
  - change (command_of (str "unpatch")) with (Some CUnpatch). cbn iota. unfold cmd_unpatch.
    replace (zlen args <? 3) with false by lia.
    destruct (getopt_unknown {| g_flags := [104]; g_args := [112; 105] |} c t rest opts) as (b & es & ops & E).
    + cbn. intuition discriminate.
    + apply U. cbn. auto.
    + cbn. intros [X|[X|[]]]; apply N; subst c; cbn; auto 12.
    + cbn. intros [X|[]]; apply N; subst c; cbn; auto 12.
    + exact Q.
    + unfold args. rewrite E, opt_loop_stop; [reflexivity| | |apply H]; cbn; intuition discriminate.
  - change (command_of (str "info")) with (Some CInfo). cbn iota. unfold cmd_info.
    destruct (getopt_unknown {| g_flags := [104; 118]; g_args := [112] |} c t rest opts) as (b & es & ops & E).
    + cbn. intuition discriminate.
    + apply U. cbn. auto.
    + cbn. intros [X|[]]; apply N; subst c; cbn; auto 12.
    + cbn. intros [X|[X|[]]]; apply N; subst c; cbn; auto 12.
    + exact Q.
    + unfold args. rewrite E, opt_loop_stop; [reflexivity| | |apply H]; cbn; intuition discriminate.
Qed.
(** But the result is then 0, as of a success: a wrong option, a missing option. *)
Theorem C52_unknown_option_refuted : exists args, forall run, execute_cmd run (str "patch") args = 0.
Proof. exists (map str ["-x"; "-p"; "42"; "a.kpatch"]%string). reflexivity. Qed.
Theorem C52_missing_option_refuted : exists args, forall run, execute_cmd run (str "unpatch") args = 0.
Proof. exists (map str ["-p"; "42"; "a.kpatch"]%string). reflexivity. Qed.
(** And asking for help is a failure. *)
Theorem C52_help_refuted : exists args, In (str "-h") args /\ forall run, execute_cmd run (str "patch") args = -1.
Proof. exists (map str ["-h"; "-p"; "42"]%string). split; [left; reflexivity|reflexivity]. Qed.

(** C80. A well-formed command line runs the operation on the process given last, with
    the patch file, or with the patch id and the selection, given. *)
Theorem C80_patch_runs : forall run pre o n path,
  Forall (fun o => u_letter o = ch_p /\ (u_joined o = true -> u_arg o <> [])) (pre ++ [o]) ->
  numeral (u_arg o) n -> n < 2 ^ 31 -> operand path ->
  let args := flat_map words (pre ++ [o]) ++ [path] in
  3 <= zlen args ->
  execute_cmd run (str "patch") args = run (RunPatch n path) /\
  execute_cmd run (str "patch-user") args = run (RunPatch n path).
Proof.
  intros run pre o n path F N L O args A.
  assert (E : cmd_patch args = (RunPatch n path, false)).
  { unfold args. rewrite cmd_patch_spec; [|destruct pre; discriminate|exact F|exact O|exact A].
    rewrite last_last. rewrite (last_pid_numeral true pre o [] n); [reflexivity| |exact N|exact L|constructor].
    rewrite Forall_app in F. destruct F as [_ F]. inversion F as [|? ? [E _] _]. exact E. }
  unfold execute_cmd, parse_cmd. change (command_of (str "patch")) with (Some CPatch).
  change (command_of (str "patch-user")) with (Some CPatch). cbn iota. rewrite E. auto.
Qed.
Theorem C80_unpatch_runs : forall run opts p q n id sel,
  Forall (fun o => (u_letter o = ch_p \/ u_letter o = ch_i) /\ (u_joined o = true -> u_arg o <> [])) opts ->
  (exists a b, opts = a ++ p :: b /\ Forall (fun o => u_letter o <> ch_p) b) -> u_letter p = ch_p ->
  (exists a b, opts = a ++ q :: b /\ Forall (fun o => u_letter o <> ch_i) b) -> u_letter q = ch_i ->
  numeral (u_arg p) n -> n < 2 ^ 31 -> u_arg q = id ->
  match sel with [] => True | w :: _ => operand w end ->
  let args := flat_map words opts ++ sel in
  3 <= zlen args ->
  execute_cmd run (str "unpatch") args = run (RunUnpatch n id sel) /\
  execute_cmd run (str "unpatch-user") args = run (RunUnpatch n id sel).
Proof.
  intros run opts p q n id sel F (a & b & Ep & Fp) Lp (a' & b' & Eq & Fq) Lq N L I O args A.
  assert (E : cmd_unpatch args = (RunUnpatch n id sel, false)).
  { unfold args. rewrite (cmd_unpatch_spec opts sel F O A) with (id := id).
    - rewrite Ep, (last_pid_numeral true a p b n Lp N L Fp). reflexivity.
    - exists p. split; [rewrite Ep; apply in_or_app; right; left; reflexivity|exact Lp].
    - rewrite Eq, (last_id a' q b' Lq Fq), I. reflexivity. }
  unfold execute_cmd, parse_cmd. change (command_of (str "unpatch")) with (Some CUnpatch).
  change (command_of (str "unpatch-user")) with (Some CUnpatch). cbn iota. rewrite E. auto.
Qed.
Theorem C80_info_runs : forall run pre o n ops,
  Forall (fun o => u_letter o = ch_p /\ (u_joined o = true -> u_arg o <> [])) (pre ++ [o]) ->
  numeral (u_arg o) n -> n < 2 ^ 31 -> match ops with [] => True | w :: _ => operand w end ->
  execute_cmd run (str "info") (flat_map words (pre ++ [o]) ++ ops) = run (RunInfo n) /\
  execute_cmd run (str "info-user") (flat_map words (pre ++ [o]) ++ ops) = run (RunInfo n).
Proof.
  intros run pre o n ops F N L O.
  assert (E : cmd_info (flat_map words (pre ++ [o]) ++ ops) = (RunInfo n, false)).
  { rewrite cmd_info_spec by assumption. rewrite (last_pid_numeral false pre o [] n); [reflexivity| |exact N|exact L|constructor].
    rewrite Forall_app in F. destruct F as [_ F]. inversion F as [|? ? [E _] _]. exact E. }
  unfold execute_cmd, parse_cmd. change (command_of (str "info")) with (Some CInfo).
  change (command_of (str "info-user")) with (Some CInfo). cbn iota. rewrite E. auto.
Qed.
Theorem C80_patch_all : forall run joined path, operand path ->
  let args := words {| u_letter := ch_p; u_arg := str "all"; u_joined := joined |} ++ [path] in
  3 <= zlen args -> execute_cmd run (str "patch") args = run (RunPatch (-1) path).
Proof.
  intros run joined path O args A.
  pose proof (cmd_patch_spec [{| u_letter := ch_p; u_arg := str "all"; u_joined := joined |}] [path]) as H.
  cbn [flat_map] in H. rewrite app_nil_r in H. fold args in H.
  unfold execute_cmd, parse_cmd. change (command_of (str "patch")) with (Some CPatch). cbn iota. rewrite H.
  - unfold args. rewrite last_last. reflexivity.
  - discriminate.
  - repeat constructor. discriminate.
  - exact O.
  - exact A.
Qed.
Example C80_patch_line : forall run,
  execute_cmd run (str "patch") (map str ["-p"; "42"; "/root/a.kpatch"]%string) = run (RunPatch 42 (str "/root/a.kpatch")).
Proof. reflexivity. Qed.
Example C80_unpatch_line : forall run,
  execute_cmd run (str "unpatch") (map str ["-i"; "p1"; "-p"; "42"; "libfoo.so"]%string) =
  run (RunUnpatch 42 (str "p1") [str "libfoo.so"]).
Proof. reflexivity. Qed.

(** What looks as well formed but does something else. *)
(** The patch before the options: nothing is done and 0 is returned. *)
Theorem C80_options_last_refuted : exists file pid, forall run,
  execute_cmd run (str "patch") [file; str "-p"; pid] = 0.
Proof. exists (str "a.kpatch"), (str "42"). reflexivity. Qed.
(** -p and the pid in one word: refused, though the same is accepted with another option. *)
Theorem C80_joined_refuted : exists file, 
  (forall run, execute_cmd run (str "patch") [str "-p42"; file] = -1) /\
  (forall run, execute_cmd run (str "patch") [str "-p41"; str "-p42"; file] = run (RunPatch 42 file)).
Proof. exists (str "a.kpatch"). split; reflexivity. Qed.
(** [-p all] after a pid does not mean all. *)
Theorem C80_all_after_pid_refuted : exists file, forall run,
  execute_cmd run (str "patch") [str "-p"; str "42"; str "-p"; str "all"; file] = run (RunPatch 42 file).
Proof. exists (str "a.kpatch"). reflexivity. Qed.
(** Without a patch file, an argument of an option is taken for it. *)
Theorem C80_missing_file_refuted : exists a b, forall run,
  execute_cmd run (str "patch") [str "-p"; a; str "-p"; b] = run (RunPatch 43 b).
Proof. exists (str "42"), (str "43"). reflexivity. Qed.
(** A pid that is no number is taken for pid 0; -1 for all processes. *)
Theorem C80_bad_pid_refuted : exists bad file, forall run,
  execute_cmd run (str "patch") [str "-p"; bad; file] = run (RunPatch 0 file) /\
  execute_cmd run (str "patch") [str "-p"; str "-1"; file] = run (RunPatch (-1) file).
Proof. exists (str "nginx"), (str "a.kpatch"). split; reflexivity. Qed.
(** [info] for all processes, as its usage says, is for pid 0, or for pid -1. *)
Theorem C80_info_all_refuted : exists a b, a <> [] /\ b = [] /\ forall run,
  execute_cmd run (str "info") a = run (RunInfo 0) /\ execute_cmd run (str "info") b = run (RunInfo (-1)).
Proof. exists (map str ["-p"; "all"]%string), []. split; [discriminate|]. split; [reflexivity|]. split; reflexivity. Qed.

(** C81. The server reads each command from its own words, if no word has more than one
    option in it. *)
Theorem C81_own_arguments_partial : forall cmds,
  Forall (fun c => Forall one_option (snd c)) cmds ->
  serve false cmds = map (fun c => Served (option_map fst (parse_cmd (fst c) (snd c)))) cmds.
Proof. exact serve_own. Qed.
Example C81_two_commands :
  serve false [(str "patch", map str ["-p"; "42"; "a.kpatch"]%string); (str "info", map str ["-p42"]%string)] =
  [Served (Some (RunPatch 42 (str "a.kpatch"))); Served (Some (RunInfo 42))].
Proof. reflexivity. Qed.
Example C81_words : Forall one_option (map str ["-p"; "42"; "-p42"; "a.kpatch"; "-"; ""]%string).
Proof.
  cbn [map]. repeat (apply Forall_cons; [intros c t E; vm_compute in E; try discriminate E; inversion E; auto|]).
  constructor.
Qed.
(** A command that stops inside a word leaves the parser pointing into it: the next
    command is read from memory that was another message. *)
Theorem C81_stale_refuted : exists c1 c2, serve false [c1; c2] = [Served (Some UsageHelp); Stale] /\
  serve false [c2] = [Served (Some (RunPatch 42 (str "a.kpatch")))].
Proof.
  exists (str "patch", map str ["-hx"; "a"; "b"]%string), (str "patch", map str ["-p"; "42"; "a.kpatch"]%string).
  split; reflexivity.
Qed.

Print Assumptions C51_visits_each_once_partial.
Print Assumptions C51_result.
Print Assumptions C51_one_process.
Print Assumptions C51_stop_refuted.
Print Assumptions C52_unknown_command_fails.
Print Assumptions C52_too_few_arguments_fail.
Print Assumptions C52_unknown_option_runs_nothing.
Print Assumptions C52_unknown_option_refuted.
Print Assumptions C52_missing_option_refuted.
Print Assumptions C52_help_refuted.
Print Assumptions C80_patch_runs.
Print Assumptions C80_unpatch_runs.
Print Assumptions C80_info_runs.
Print Assumptions C80_patch_all.
Print Assumptions C80_options_last_refuted.
Print Assumptions C80_joined_refuted.
Print Assumptions C80_all_after_pid_refuted.
Print Assumptions C80_missing_file_refuted.
Print Assumptions C80_bad_pid_refuted.
Print Assumptions C80_info_all_refuted.
Print Assumptions C81_own_arguments_partial.
Print Assumptions C81_stale_refuted.
