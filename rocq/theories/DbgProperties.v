(** C49: the debug filter.  See DESIGN.md. *)
From Coq Require Import String.
From Verif Require Import Base BaseProofs StorageModel TextModel TextSpec TextProofs RenameModel RenameSpec RenameProofs
  ParseModel DbgModel DbgSpec DbgProofs.
Open Scope list_scope.

(** What is printed is the statements, unchanged and in order, without groups of debug
    information; and none is left (but for what follows an interrupted debug section,
    see C49_section_tail_refuted).  The first statement is the empty one in front of the
    file. *)
Theorem C49_only_debug_dropped a o x ls out :
  debug_filter a o (x :: ls) = Ok out -> filtered a o ls out.
Proof.
  unfold debug_filter. cbn [tl length]. intros H.
  destruct (filter_spec a o (S (length ls)) ls) as [(out' & E & F)|(E & _)]; [lia| |congruence].
  rewrite E in H. now injection H as <-.
Qed.
Print Assumptions C49_only_debug_dropped.

(** The filter always ends, without fault unless there is an empty statement in front of
    another one in the same line. *)
Theorem C49_filter_ends a o x ls :
  (forall p y z r, ls = p ++ y :: z :: r -> st_text y = [] -> st_num y <> st_num z) ->
  Forall (fun y => (1 <= st_num y)%nat) ls ->
  exists out, debug_filter a o (x :: ls) = Ok out.
Proof.
  unfold debug_filter. cbn [tl length]. intros N P.
  destruct (filter_spec a o (S (length ls)) ls) as [(out & E & _)|(E & p & y & r & H & Hy & Hn)]; [lia|eauto|].
  destruct r as [|z r].
  - cbn in Hn. rewrite Forall_forall in P. specialize (P y). rewrite H in P.
    assert (1 <= st_num y)%nat by (apply P; apply in_or_app; right; now left). lia.
  - destruct (N p y z r); auto.
Qed.
Print Assumptions C49_filter_ends.

Definition file (s : list String.string) : text := concat (map (fun x => str x ++ [10]) s).
Definition all_off : dopts := {| do_eh := false; do_except := false; do_cfi := false; do_newlines := false |}.
Definition filter_file (a : parch) (o : dopts) (content : text) : res text :=
  do ls <- read_file 65535 content; do ss <- init_multilines a ls; debug_filter a o ss.
Example C49_case :
  filter_file px86 {| do_eh := true; do_except := false; do_cfi := true; do_newlines := false |}
    (file ["	.file	""a.c"""; "	.text"; ".Ltext0:"; "	.globl	f"; "f:"; ".LFB0:"; "	.file 1 ""a.c"""; "	.loc 1 3";
           "	.cfi_startproc"; "# note"; "	nop; ret"; "	.section	.debug_info,"""",@progbits"; ".Linfo:"; "	.long	1"; "	.previous"; "	.ident	""x"""]%string)
  = Ok (file ["	.file	""a.c"""; "	.text"; "	.globl	f"; "f:"; "	nop; ret"; "	.ident	""x"""]%string).
Proof. vm_compute. reflexivity. Qed.

(** A statement that is no debug information is left out between .text and the label of
    the beginning of the text. *)
Theorem C49_text_dropped_refuted : exists content out,
  content = file ["	.text"; "	.globl	f"; ".Ltext0:"; "f:"]%string
  /\ filter_file px86 all_off content = Ok out /\ out = file ["f:"]%string.
Proof. eexists _, _. split; [reflexivity|]. split; vm_compute; reflexivity. Qed.
Print Assumptions C49_text_dropped_refuted.

(** Debug information is left behind, and moves into the section before, when a debug
    section holds something that the filter does not know. *)
Theorem C49_section_tail_refuted : exists content out ss ss' ls ls' tab tab' x y,
  content = file ["	.text"; "	.section	.debug_info,"""",@progbits"; "	.long	1"; "	.8byte	2"]%string
  /\ filter_file px86 all_off content = Ok out /\ out = file ["	.text"; "	.8byte	2"]%string
  /\ (do l <- read_file 65535 content; init_multilines px86 l) = Ok ss /\ init_sections px86 predefined ss = Ok (ls, tab)
  /\ (do l <- read_file 65535 out; init_multilines px86 l) = Ok ss' /\ init_sections px86 predefined ss' = Ok (ls', tab')
  /\ nth_error ls 4 = Some x /\ nth_error ls' 2 = Some y /\ l_text x = str "	.8byte	2" /\ l_text y = l_text x
  /\ sc_name (l_sect x) = str ".debug_info" /\ sc_name (l_sect y) = str ".text".
Proof.
  eexists _, _, _, _, _, _, _, _, _, _. split; [reflexivity|]. split; [vm_compute; reflexivity|]. split; [vm_compute; reflexivity|].
  split; [vm_compute; reflexivity|]. split; [vm_compute; reflexivity|]. split; [vm_compute; reflexivity|]. split; [vm_compute; reflexivity|].
  split; [reflexivity|]. split; [reflexivity|]. split; [reflexivity|]. split; [reflexivity|]. split; vm_compute; reflexivity.
Qed.
Print Assumptions C49_section_tail_refuted.

(** An empty statement between two semicolons makes the filter read before a string. *)
Theorem C49_empty_statement_refuted : exists content, content = file ["	nop;; ret"]%string
  /\ filter_file px86 all_off content = Crash.
Proof. eexists. split; [reflexivity|]. vm_compute. reflexivity. Qed.
Print Assumptions C49_empty_statement_refuted.

(** A label with one of the prefixes is dropped although code refers to it. *)
Theorem C49_label_dropped_refuted : exists content out,
  content = file [".LFExit:"; "	jmp	.LFExit"]%string
  /\ filter_file px86 all_off content = Ok out /\ out = file ["	jmp	.LFExit"]%string.
Proof. eexists _, _. split; [reflexivity|]. split; vm_compute; reflexivity. Qed.
Print Assumptions C49_label_dropped_refuted.
