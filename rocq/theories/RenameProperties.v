(** C44: the table of renames; C43 for one line; C85: renaming in a line.  See DESIGN.md. *)
From Coq Require Import String.
From Verif Require Import Base BaseProofs StorageModel TextModel TextSpec TextProofs TextProperties
  RbModel RbSpec RbProofs RenameModel RenameSpec RenameProofs.
Open Scope list_scope.

(** Any sequence of additions and deletions: the program ends with an error exactly when
    a name would get a second target; otherwise a lookup gives what was added last and
    not deleted, and nothing for all other names. *)
Theorem C44_table_is_map (ops : list rop) :
  let run := fold_left (fun r o => rbind r (fun t => match o with
                                                     | RAdd s d => rename_add t s d
                                                     | RDel s => Ok (rename_del t s)
                                                     end)) ops (Ok []) in
  match map_run ops with
  | Some m => exists r, run = Ok r /\ forall n, rename_find r n = m n
  | None => run = Fatal
  end.
Proof.
  cbn zeta. pose proof (list_run_agree ops) as H. unfold agree in H. fold list_step.
  destruct (fold_left list_step ops (Ok [])) as [t| | |]; destruct (map_run ops) as [m|]; try destruct H; eauto.
Qed.
Print Assumptions C44_table_is_map.

(** The tree the code keeps it in behaves as the same map; no null pointer is
    followed. *)
Theorem C44_tree_is_map (ops : list rop) :
  let run := fold_left (fun r o => rbind r (fun t => match o with
                                                     | RAdd s d => tree_add t s d
                                                     | RDel s => tree_del t s
                                                     end)) ops (Ok Leaf) in
  match map_run ops with
  | Some m => exists t, run = Ok t /\ forall n, tree_find t n = m n
  | None => run = Fatal
  end.
Proof.
  cbn zeta. pose proof (tree_run_agree C27_kpstrcmp_orders ops) as H. unfold agree in H. fold tree_op.
  destruct (fold_left tree_op ops (Ok Leaf)) as [t| | |]; destruct (map_run ops) as [m|]; try destruct H; eauto.
Qed.
Print Assumptions C44_tree_is_map.
Example C44_case :
  let ops := [RAdd (str ".L1") (str ".L7"); RAdd (str "x") (str "x"); RAdd (str ".L2") (str ".L3"); RDel (str ".L1");
              RAdd (str ".L1") (str ".L8"); RDel (str ".L2")] in
  match map_run ops with
  | Some m => m (str ".L1") = Some (str ".L8") /\ m (str ".L2") = None /\ m (str "x") = None
  | None => False
  end
  /\ map_run (ops ++ [RAdd (str ".L1") (str ".L9")]) = None.
Proof. vm_compute. auto. Qed.

(** The map need not be a bijection: two names may get the same target. *)
Theorem C44_bijection_refuted : exists r r' r'' a b d, a <> b
  /\ rename_add r a d = Ok r' /\ rename_add r' b d = Ok r''
  /\ rename_find r'' a = Some d /\ rename_find r'' b = Some d.
Proof.
  exists [], [(str ".L1", str ".L3")], [(str ".L2", str ".L3"); (str ".L1", str ".L3")], (str ".L1"), (str ".L2"), (str ".L3").
  split; [discriminate|]. repeat split; vm_compute; reflexivity.
Qed.
Print Assumptions C44_bijection_refuted.

(** Two lines compare equal exactly when their tokens correspond one to one: both not
    renamed and the same, the first renamed to the second, both renamed to the same name,
    or each renamed to the other.  The comparison always ends. *)
Theorem C43_lines_equal_iff_tokens_correspond r0 r1 (s0 s1 : text) : exists d,
  strcmp_after_rename r0 r1 s0 s1 = Ok d
  /\ (d = false <-> exists ts0 ts1, has_tokens s0 ts0 /\ has_tokens s1 ts1
        /\ Forall2 (corresponds (rename_find r0) (rename_find r1)) ts0 ts1).
Proof. apply strcmp_after_rename_spec. Qed.
Print Assumptions C43_lines_equal_iff_tokens_correspond.
Example C43_line_case :
  let r0 := [(str ".L4", str ".L5"); (str ".LC0", str ".LC1")] in
  let r1 := [(str ".LC9", str ".LC1")] in
  strcmp_after_rename r0 r1 (str "  movl	.LC0(%rip),%eax; je .L4 ") (str "movl .LC9 ( %rip), %eax;je	.L5") = Ok false
  /\ strcmp_after_rename r0 r1 (str "je .L4") (str "je .L4") = Ok true
  /\ strcmp_after_rename r0 r1 (str "je .L4") (str "je .L5, x") = Ok true.
Proof. repeat split; vm_compute; reflexivity. Qed.

(** Without renames, lines that compare equal have the same tokens. *)
Theorem C43_no_renames_same_tokens (s0 s1 : text) ts0 ts1 :
  has_tokens s0 ts0 -> has_tokens s1 ts1 -> strcmp_after_rename [] [] s0 s1 = Ok false -> ts0 = ts1.
Proof.
  intros H0 H1 E. destruct (strcmp_after_rename_spec [] [] s0 s1) as (d & E' & Hd).
  rewrite E in E'. injection E' as <-. destruct (proj1 Hd eq_refl) as (u0 & u1 & U0 & U1 & F).
  rewrite has_tokens_toks in *. rewrite (toks_det _ _ H0 _ U0), (toks_det _ _ H1 _ U1).
  clear - F. induction F as [|a b l l' C F IH]; auto. f_equal; auto.
  destruct C as [(_ & _ & C)|[(C & _)|[(d & C & _)|(C & _)]]]; auto; discriminate C.
Qed.
Print Assumptions C43_no_renames_same_tokens.
Example C43_no_renames_case : has_tokens (str "ret ") [str "ret"] /\ strcmp_after_rename [] [] (str "ret ") (str "	ret") = Ok false.
Proof.
  split; [|vm_compute; reflexivity]. apply has_tokens_toks.
  apply (tk_some (str "ret ") (KStr (str "ret") (str " ")) None []); [vm_compute; reflexivity|constructor].
Qed.

(** Renaming a line replaces every token that has a new name, as far as the new name is a
    C string; all other tokens and all blanks stay as they are. *)
Theorem C85_rename_replaces_tokens r (s : text) l last : one_line s -> pieces asm_delims s l last -> l <> [] ->
  str_do_rename r s
  = Ok (glue (map (fun p => (fst p, match rename_find r (snd p) with Some d => upto_nul d | None => snd p end)) l) last).
Proof.
  intros O P N. rewrite (str_do_rename_spec r s l last O P). destruct l; [congruence|reflexivity].
Qed.
Print Assumptions C85_rename_replaces_tokens.
Example C85_case :
  str_do_rename [(str "foo", str "foo.kpatch"); (str ".L2", str ".L2.new")] (str "	movl	foo+4(%rip), .L2 # foo ""foo""")
  = Ok (str "	movl	foo.kpatch+4(%rip), .L2.new # foo.kpatch ""foo""").
Proof. vm_compute. reflexivity. Qed.

(** A line in which no token has a new name is copied. *)
Theorem C85_rename_copies_other_lines r (s : text) : one_line s ->
  (forall ts t, has_tokens s ts -> In t ts -> rename_find r t = None) -> str_do_rename r s = Ok s.
Proof.
  intros O H. destruct (TextStmt.pieces_exist s) as (l & last & P).
  rewrite (str_do_rename_spec r s l last O P).
  assert (Hn : forall t, In t (match l with [] => [[]] | _ => map snd l end) -> rename_find r t = None).
  { intros t I. eapply H; [|exact I]. exists l, last. split; auto. }
  destruct l as [|[g t] l].
  - rewrite Hn by (now left). now rewrite app_nil_r.
  - f_equal. rewrite (pieces_one_line _ _ _ _ O P) at 1. f_equal.
    rewrite <- (map_id ((g, t) :: l)) at 2. apply map_ext_in. intros [g' t'] I. cbn [fst snd]. unfold rn.
    rewrite Hn; auto. change t' with (snd (g', t')). apply in_map. exact I.
Qed.
Print Assumptions C85_rename_copies_other_lines.
Example C85_copy_case :
  let s := str "	call	bar" in
  one_line s /\ str_do_rename [(str "foo", str "foo.kpatch")] s = Ok s.
Proof. split; [unfold one_line; vm_compute; intuition discriminate|vm_compute; reflexivity]. Qed.
