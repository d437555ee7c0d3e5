(** Properties of messages (kpatch_log.c). *)
From Coq Require Import String.
From Verif Require Import Base BaseProofs StorageModel CliModel LogModel LogSpec LogProofs.
Open Scope list_scope.

(** ** C141.  Whatever output does to errno, after any messages that do not end the program
    errno is what it was. *)
Theorem C141_errno wr elf place errno_line elf_line lv ind cs s s' :
  run wr elf place errno_line elf_line lv ind cs s = Done s' -> s_errno s' = s_errno s.
Proof. apply run_errno. Qed.
Print Assumptions C141_errno.

(** When output leaves errno alone, what is written is: each message whose level is enabled,
    indented, errors to stderr and the rest to stdout; each error with its place, its text, errno
    if there is one and libelf's error if there is one; nothing else.  The program ends, with
    code 1, at the first fatal message. *)
Theorem C141_shown_partial wr elf place errno_line elf_line elf_e lv ind cs s :
  (forall n, wr n = None) -> (forall n, elf n = elf_e) -> 0 <= ind < 8 ->
  let texts := s_out s ++ flat_map (shown place errno_line elf_line lv ind (s_errno s) elf_e) (made cs) in
  if existsb ends cs
  then exists s', run wr elf place errno_line elf_line lv ind cs s = Exit 1 s' /\ s_out s' = texts
  else exists s', run wr elf place errno_line elf_line lv ind cs s = Done s' /\ s_out s' = texts.
Proof.
  intros W E I. cbv zeta.
  destruct (run_shown wr elf place errno_line elf_line elf_e W E lv ind cs I s) as [O H]. cbv zeta in O.
  destruct (existsb ends cs); destruct H as (s' & H); rewrite H in O; exists s'; split; assumption.
Qed.
Print Assumptions C141_shown_partial.

Definition e2t (e : Z) : list Z := [e].
Definition pl (f : list Z) (l : Z) : list Z := f ++ [l].
Definition s0 (e : Z) : st := {| s_errno := e; s_n := 0; s_out := [] |}.
Example C141_case :
  run (fun _ => None) (fun _ => 0) pl e2t e2t 2 4
    [Log 3 (fun _ => str "debug"); Log 2 (fun _ => str "info"); LogError (str "a.c") 7 (fun _ => str "open"); Fatal (fun _ => str "end"); Log 0 (fun _ => [])] (s0 13)
  = Exit 1 {| s_errno := 13; s_n := 7; s_out := [(false, str "    "); (false, str "info"); (true, str "a.c" ++ [7]); (true, str "open"); (true, [13]);
      (true, str "FATAL! "); (true, str "end")] |}.
Proof. vm_compute. reflexivity. Qed.

(** The number an error is reported with is not that of the failure when writing the first
    part of the message changes errno. *)
Theorem C141_reported_errno_refuted : exists wr e s',
  e <> 0 /\ run wr (fun _ => 0) pl e2t e2t 2 0 [LogError (str "a.c") 7 (fun _ => str "open")] (s0 e) = Done s' /\
  ~ In (true, e2t e) (s_out s') /\ In (true, e2t 11) (s_out s') /\ e <> 11.
Proof.
  exists (fun n => match n with O => Some 11 | _ => None end), 2. eexists. split; [lia|]. split; [vm_compute; reflexivity|].
  split; [vm_compute; intuition discriminate|]. split; [vm_compute; auto|lia].
Qed.
Print Assumptions C141_reported_errno_refuted.

(** kperr with strerror(errno) among its arguments (kpatch_common.c:45 and 58,
    kpatch_storage.c:95) never names the failure: the text is that of errno 0, whatever errno
    was. *)
Theorem C141_kperr_text wr elf place errno_line elf_line lv ind f l (strerror : Z -> list Z) e :
  exists s', run wr elf place errno_line elf_line lv ind [Kperr f l strerror] (s0 e) = Done s' /\
  firstn 2 (s_out s') = [(true, place f l); (true, strerror 0)].
Proof.
  eexists. split; [reflexivity|]. cbn. destruct (elf _ =? 0); reflexivity.
Qed.
Print Assumptions C141_kperr_text.
Theorem C141_kperr_names_failure_refuted : exists (strerror : Z -> list Z) e s', e <> 0 /\ (forall a b, strerror a = strerror b -> a = b) /\
  run (fun _ => None) (fun _ => 0) pl e2t e2t 2 0 [Kperr (str "kpatch_common.c") 45 strerror] (s0 e) = Done s' /\
  forall t, In t (s_out s') -> snd t <> strerror e.
Proof.
  exists e2t, 13. eexists. split; [lia|]. split; [intros a b H; injection H as ->; reflexivity|].
  split; [vm_compute; reflexivity|]. intros t Ht. vm_compute in Ht. destruct Ht as [<-|[<-|[]]]; discriminate.
Qed.
Print Assumptions C141_kperr_names_failure_refuted.

(** The level is that of LOG_INFO and one more for each -v before the command; after commands
    of which one is info without -v it is that of errors alone, otherwise it is as it was. *)
Theorem C141_start k ops : match ops with (45 :: _ :: _) :: _ => False | _ => True end ->
  main_level (repeat (str "-v") k ++ ops) = Some (2 + Z.of_nat k, ops).
Proof. apply main_vs. Qed.
Print Assumptions C141_start.
Theorem C141_level l lv : Forall scmd_ok l -> levels_after (map typed l) lv = if existsb quiet l then 0 else lv.
Proof. apply levels. Qed.
Print Assumptions C141_level.
Example C141_level_case :
  let l := [Info (str "info") [Pid (str "12"); Verbose]; Other (str "patch") [str "-p"; str "12"; str "/st"]] in
  Forall scmd_ok l /\ levels_after (map typed l) 3 = 3.
Proof.
  cbv zeta. split; [|vm_compute; reflexivity].
  constructor; [left; reflexivity|]. constructor; [|constructor]. split; discriminate.
Qed.

(** Patching is announced, with any number of -v and also with none, until the first info
    without -v. *)
Theorem C141_announced k l : Forall scmd_ok l ->
  patch_announced (levels_after (map typed l) (2 + Z.of_nat k)) = negb (existsb quiet l).
Proof.
  intro H. rewrite C141_level by exact H. destruct (existsb quiet l); [reflexivity|]. unfold patch_announced. apply Z.leb_le. unfold LOG_INFO. lia.
Qed.
Print Assumptions C141_announced.

(** A server started with -v says what it does until someone asks for information; from then on
    patching is silent. *)
Theorem C141_stays_verbose_refuted : exists args lv ops cmds,
  main_level args = Some (lv, ops) /\ patch_announced lv = true /\ In (str "-v") args /\ length cmds = 1%nat /\
  patch_announced (levels_after cmds lv) = false.
Proof.
  exists [str "-v"; str "/run/s"], 3, [str "/run/s"], [(str "info", [str "-p"; str "12"])].
  split; [reflexivity|]. split; [reflexivity|]. split; [left; reflexivity|]. split; reflexivity.
Qed.
Print Assumptions C141_stays_verbose_refuted.
