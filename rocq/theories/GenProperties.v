(** C94-C98, and C42, C43 of whole files: the generated assembler file.  [gensrc] is the
    program kpatch_gensrc with two input files. *)
From Coq Require Import String DecimalString.
From Verif Require Import Base BaseProofs StorageModel CliModel TextModel TextSpec TextProofs TextLines ParseModel ParseSpec RenameModel RenameSpec RenameProofs
  CmpModel CmpSpec CmpProofs DbgModel GenModel GenSpec GenFrame GenSteps GenOther GenLoad GenOut GenWrite2 GenWhole GenChange GenNames.
From Verif Require EngineModel.
Open Scope list_scope.

(** ** Files for the examples *)
Definition opt : gopts := {| go_rhel5 := false; go_32 := false; go_ignore := []; go_unlink := []; go_adapt := []; go_conf := None;
  go_got := false; go_global := false; go_shift := str "12"; go_junk := false |}.
Definition inp (s : string) : input := {| in_dir := str "/a/"; in_base := str "a.c"; in_content := str s |}.
(** Two static variables of one name, x.1 and x.2; [foo] returns the first. *)
Definition ex_old : string := "	.file	""a.c""
	.text
	.globl	foo
	.type	foo, @function
foo:
	movl	x.1(%rip), %eax
	ret
	.size	foo, .-foo
	.local	x.1
	.comm	x.1,4,4
	.local	x.2
	.comm	x.2,4,4
	.ident	""GCC""
".
(** Compiled anew, with other numbers; [foo] returns the second. *)
Definition ex_shifted : string := "	.file	""a.c""
	.text
	.globl	foo
	.type	foo, @function
foo:
	movl	x.3(%rip), %eax
	ret
	.size	foo, .-foo
	.local	x.2
	.comm	x.2,4,4
	.local	x.3
	.comm	x.3,4,4
	.ident	""GCC""
".
(** [foo] returns the second plus one. *)
Definition ex_new : string := "	.file	""a.c""
	.text
	.globl	foo
	.type	foo, @function
foo:
	movl	x.3(%rip), %eax
	incl	%eax
	ret
	.size	foo, .-foo
	.local	x.2
	.comm	x.2,4,4
	.local	x.3
	.comm	x.3,4,4
	.ident	""GCC""
".

(** ** C94: what the generated file is made of.
    [f0] and [f1] are the two files as parsed, [st] the result of comparing them. *)
Theorem C94_generated_file : forall a o buf i0 i1 out, gensrc a o buf i0 i1 = Ok out ->
  exists f0 f1 st, run_of a o buf i0 i1 f0 f1 st
    (* the lines are those of the input, and so are the blocks of code and data *)
    /\ g_lines (s_0 st) = g_lines f0 /\ g_lines (s_1 st) = g_lines f1
    /\ map core (filter (fun b => negb (other b)) (g_blocks (s_0 st))) = map core (filter (fun b => negb (other b)) (g_blocks f0))
    /\ map core (filter (fun b => negb (other b)) (g_blocks (s_1 st))) = map core (filter (fun b => negb (other b)) (g_blocks f1))
    (* a function of the program is joined with at most one block *)
    /\ (forall b0 b1, b_type b0 = BFunc -> joined st b0 b1 -> named_alike b0 b1 /\ b_pair b1 = Some (b_start b0))
    /\ output_of o st out.
Proof.
  intros a o buf i0 i1 out H. destruct (gensrc_spec _ _ _ _ _ _ H) as (f0 & f1 & st & R & R0 & R1 & O0 & O1 & W).
  exists f0, f1, st. split; auto. destruct (analyze_spec _ _ _ _ _ R0 R1 (ru_an _ _ _ _ _ _ _ _ R)) as (st2 & A).
  pose proof (pass_later _ _ (an_pass _ _ _ _ A)) as [[C0 L0 _ _] [C1 L1 _ _] _ _].
  split; [rewrite (rs_lines _ _ _ (an_0 _ _ _ _ A)); exact L0|].
  split; [rewrite (rs_lines _ _ _ (an_1 _ _ _ _ A)); exact L1|].
  assert (F : forall l l', map core l' = map core l -> map core (filter (fun b => negb (other b)) l') = map core (filter (fun b => negb (other b)) l)).
  { induction l as [|b l IH]; intros [|c l'] E; try discriminate E; auto. destruct (cons_core _ _ _ _ E) as (E1 & E2).
    assert (T : other c = other b) by (unfold other; destruct (alike_fields _ _ E1) as (_ & _ & _ & _ & _ & T & _); now rewrite T).
    cbn [filter]. rewrite T. destruct (negb (other b)); cbn [map]; [|auto]. rewrite (IH l' E2). f_equal. exact E1. }
  split; [rewrite (rs_keep _ _ _ (an_0 _ _ _ _ A)); apply F; exact C0|].
  split; [rewrite (rs_keep _ _ _ (an_1 _ _ _ _ A)); apply F; exact C1|].
  split; auto. intros b0 b1 T J. destruct (an_func a f0 f1 st2 st R0 R1 A b0 b1 T J) as (_ & N & P & _). auto.
Qed.
Print Assumptions C94_generated_file.
Example C94_hyps : exists out, gensrc px86 opt 4095 (inp ex_old) (inp ex_new) = Ok out
  /\ out <> str ex_old /\ contains out (str "foo.kpatch:") = true.
Proof. eexists. split; [vm_compute; reflexivity|]. split; [vm_compute; discriminate|vm_compute; reflexivity]. Qed.

(** ** C95: no change is lost.
    [emitted]: the function's code and its entry are in the output, with the name of the
    original function or without.  [left_out]: an option or the configuration asks for it.
    [equal_code]: line by line the same up to names that stand for one another. *)
Theorem C95_changes_emitted : forall a o buf i0 i1 out, gensrc a o buf i0 i1 = Ok out ->
  exists f0 f1 st, run_of a o buf i0 i1 f0 f1 st /\ output_of o st out
    (* a function of the new file *)
    /\ (forall b1, In b1 (g_blocks (s_1 st)) -> b_type b1 = BFunc ->
          (b_pair b1 = None /\ emitted o st out b1 None)
          \/ exists b0, joined st b0 b1 /\ named_alike b0 b1 /\ b_pair b1 = Some (b_start b0)
               /\ ((in_syms_list None (g_base (s_1 st)) (txt (b_hname b1)) (go_unlink o) = true /\ emitted o st out b1 None)
                   \/ (b_type b0 = BFunc /\ emitted o st out b1 (Some (txt (b_name b0))))
                   \/ left_out o st b0 b1 \/ equal_code o st b0 b1))
    (* a variable of the program *)
    /\ (forall b0, In b0 (g_blocks (s_0 st)) -> b_type b0 = BVar ->
          (b_pair b0 = None /\ temporary (txt (b_name b0)))
          \/ exists b1, joined st b0 b1
               /\ (b_type b1 = BOther \/ (named_alike b0 b1 /\ (left_out o st b0 b1 \/ equal_code o st b0 b1)))).
Proof. exact changed_emitted. Qed.
Print Assumptions C95_changes_emitted.
(** One function changed, one as it was, one new, and a variable *)
Definition ex_fun (n body : string) : string := "	.globl	" ++ n ++ "
	.type	" ++ n ++ ", @function
" ++ n ++ ":
" ++ body ++ "	ret
	.size	" ++ n ++ ", .-" ++ n ++ "
".
Definition ex_var (n body : string) : string := "	.globl	" ++ n ++ "
	.data
	.align 4
	.type	" ++ n ++ ", @object
	.size	" ++ n ++ ", 4
" ++ n ++ ":
	.long	" ++ body ++ "
	.text
".
Definition ex_head : string := "	.file	""a.c""
	.text
".
Definition ex_tail : string := "	.ident	""GCC""
".
Example C95_hyps :
  (exists out, gensrc px86 opt 4095 (inp (ex_head ++ ex_var "v" "1" ++ ex_fun "foo" "	incl	%eax
" ++ ex_fun "bar" "	decl	%eax
" ++ ex_tail)) (inp (ex_head ++ ex_var "v" "1" ++ ex_fun "foo" "	incl	%ebx
" ++ ex_fun "bar" "	decl	%eax
" ++ ex_fun "new" "	nop
" ++ ex_tail)) = Ok out
     /\ contains out (str "foo.kpatch:") = true /\ contains out (str "new.kpatch_end:") = true /\ contains out (str "bar.kpatch") = false)
  (* another value of the variable is refused *)
  /\ (forall out, gensrc px86 opt 4095 (inp (ex_head ++ ex_var "v" "1" ++ ex_fun "foo" "	incl	%eax
" ++ ex_tail)) (inp (ex_head ++ ex_var "v" "2" ++ ex_fun "foo" "	incl	%eax
" ++ ex_tail)) <> Ok out).
Proof.
  split; [|vm_compute; discriminate]. eexists. split; [vm_compute; reflexivity|]. split; [|split]; vm_compute; reflexivity.
Qed.

(** ** C96: names in the output.
    [rename_find (g_ren (s_1 st))] is the table with which [output_of] tells the code and
    data of the new file. *)
Theorem C96_new_names : forall a o buf i0 i1 out, gensrc a o buf i0 i1 = Ok out ->
  exists f0 f1 st, run_of a o buf i0 i1 f0 f1 st /\ output_of o st out
    (* no other names are in the table *)
    /\ (forall n d, rename_find (g_ren (s_1 st)) n = Some d -> stands_for1 st n d)
    /\ (labels_apart f1 -> names_of o st (rename_find (g_ren (s_1 st)))).
Proof.
  intros a o buf i0 i1 out H. destruct (gensrc_spec _ _ _ _ _ _ H) as (f0 & f1 & st & R & R0 & R1 & _ & _ & W).
  pose proof (ru_an _ _ _ _ _ _ _ _ R) as E. exists f0, f1, st. split; auto. split; auto. split; [exact (analyze_stands _ _ _ _ _ R0 R1 E)|].
  intros La. exact (analyze_names _ _ _ _ _ R0 R1 La E).
Qed.
Print Assumptions C96_new_names.
(** A changed function with a label that calls one that is the same and a new one, and
    uses a variable of the program and a new variable *)
Definition nm_old : string := ex_head ++ ex_var "v" "1" ++ ex_fun "foo.part.0" "	incl	%eax
" ++ ex_fun "bar" "	decl	%eax
" ++ ex_tail.
Definition nm_new : string := ex_head ++ ex_var "w" "2" ++ ex_var "v" "1" ++ ex_fun "foo.part.1" "	incl	%eax
" ++ ex_fun "new" "	nop
" ++ ex_fun "bar" ".L2:
	jmp	.L2
	call	foo.part.1
	call	new
	movl	v(%rip), %eax
	movl	w(%rip), %eax
" ++ ex_tail.
Definition apart_b (f : gfile) : bool :=
  forallb (fun b => negb (btype_beq (b_type b) BFunc)
    || forallb (fun x => forallb (fun c => negb (same (txt (b_name c)) (label_name x)) || Nat.eqb (b_start c) (b_start b)) (g_blocks f)) (labels (blines f b))) (g_blocks f).
Lemma apart_b_ok f : apart_b f = true -> labels_apart f.
Proof.
  intros H b c i n Ib T L Ic E. unfold apart_b in H. rewrite forallb_forall in H. specialize (H b Ib). rewrite T in H. cbn [btype_beq negb orb] in H.
  apply nth_label_in in L as (x & Ix & ->). rewrite forallb_forall in H. specialize (H x Ix). rewrite forallb_forall in H. specialize (H c Ic).
  rewrite E, same_refl in H. now apply Nat.eqb_eq.
Qed.
Example C96_hyps :
  (exists out, gensrc px86 opt 4095 (inp nm_old) (inp nm_new) = Ok out
     /\ forall l, In l ["bar.kpatch:"; ".L2.kpatch:"; "	jmp	.L2.kpatch"; "	call	foo.part.0"; "	call	new
"; "	movl	v(%rip)"; "	movl	w.kpatch(%rip)"; "w.kpatch:"]%string -> contains out (str l) = true)
  /\ (exists ms ls tb f, load px86 4095 predefined (inp nm_new) = Ok (ms, ls, tb) /\ file_of px86 (inp nm_new) ls = Ok f /\ labels_apart f).
Proof.
  split.
  - eexists. split; [vm_compute; reflexivity|]. intros l I. repeat (destruct I as [<-|I]; [vm_compute; reflexivity|]). destruct I.
  - eexists _, _, _, _. split; [vm_compute; reflexivity|]. split; [vm_compute; reflexivity|]. apply apart_b_ok. vm_compute. reflexivity.
Qed.
(** A function that is to be left out keeps the name it has in the new file, even when the
    compiler made that name and the function is called otherwise in the program: nothing
    of that name is there. *)
Definition lo_old : string := ex_head ++ ex_fun "foo.isra.0" "	incl	%eax
" ++ ex_fun "bar" "	call	foo.isra.0
" ++ ex_tail.
Definition lo_new : string := ex_head ++ ex_fun "foo.isra.1" "	incl	%ebx
" ++ ex_fun "bar" "	nop
	call	foo.isra.1
" ++ ex_tail.
Definition lo_opt : gopts := {| go_rhel5 := false; go_32 := false; go_ignore := [(None, str "foo")]; go_unlink := []; go_adapt := []; go_conf := None;
  go_got := false; go_global := false; go_shift := str "12"; go_junk := false |}.
Theorem C96_left_out_name_refuted : exists i0 i1 out, gensrc px86 lo_opt 4095 i0 i1 = Ok out
  /\ contains out (str "	call	foo.isra.1") = true /\ contains out (str "foo.isra.1:") = false /\ contains (in_content i0) (str "foo.isra.1") = false.
Proof.
  exists (inp lo_old), (inp lo_new). eexists. split; [vm_compute; reflexivity|]. split; [|split]; vm_compute; reflexivity.
Qed.
Print Assumptions C96_left_out_name_refuted.

(** ** C43, of whole files: a function that reads another variable is left as it is.
    The variables x.1, x.2 of the program are joined with x.2, x.3 of the new file; the
    names of both are taken for one another both ways, so that x.1 and x.3 are equal. *)
Definition named (b : cblock) (n : string) : Prop := txt (b_name b) = str n.
Theorem C43_shifted_statics_refuted : exists i0 i1 f0 f1 st out g0 g1 x1 x2,
  gensrc px86 opt 4095 i0 i1 = Ok out /\ run_of px86 opt 4095 i0 i1 f0 f1 st
  (* the function of the program reads x.1, the new one x.3 *)
  /\ joined st g0 g1 /\ In (str "	movl	x.1(%rip), %eax") (map l_text (blines f0 g0))
  /\ In (str "	movl	x.3(%rip), %eax") (map l_text (blines f1 g1))
  (* x.1 is joined with x.2, which is not x.3 *)
  /\ joined st x1 x2 /\ named x1 "x.1" /\ named x2 "x.2"
  (* but nothing is emitted *)
  /\ contains out (str ".kpatch") = false.
Proof.
  pose (l0 := load px86 4095 predefined (inp ex_old)).
  pose (tb := match l0 with Ok (_, _, t) => t | _ => [] end). pose (ms0 := match l0 with Ok (m, _, _) => m | _ => [] end).
  pose (ls0 := match l0 with Ok (_, l, _) => l | _ => [] end).
  pose (l1 := load px86 4095 tb (inp ex_shifted)).
  pose (tb1 := match l1 with Ok (_, _, t) => t | _ => [] end). pose (ms1 := match l1 with Ok (m, _, _) => m | _ => [] end).
  pose (ls1 := match l1 with Ok (_, l, _) => l | _ => [] end).
  pose (no := {| g_lines := []; g_blocks := []; g_ren := []; g_dir := []; g_base := [] |}).
  pose (f0 := match file_of px86 (inp ex_old) ls0 with Ok f => f | _ => no end).
  pose (f1 := match file_of px86 (inp ex_shifted) ls1 with Ok f => f | _ => no end).
  pose (st := match analyze opt (start f0 f1) with Ok s => s | _ => start no no end).
  pose (out := match gensrc px86 opt 4095 (inp ex_old) (inp ex_shifted) with Ok s => s | _ => [] end).
  pose (b := fun (n : string) (f : gfile) => match find_by_name (g_blocks f) (str n) with Some b => b | None => nth 0 (g_blocks f) (Build_cblock 0 0 kempty kempty false BOther false false false false None None) end).
  exists (inp ex_old), (inp ex_shifted), f0, f1, st, out, (b "foo"%string (s_0 st)), (b "foo"%string (s_1 st)), (b "x.1"%string (s_0 st)), (b "x.2"%string (s_1 st)).
  split; [vm_compute; reflexivity|].
  split; [split; [exists ms0, ls0, tb; split; [vm_compute; reflexivity|]; split; [vm_compute; reflexivity|];
                  exists ms1, ls1, tb1; split; vm_compute; reflexivity|vm_compute; reflexivity]|].
  split; [vm_compute; auto 20|]. split; [vm_compute; auto 20|]. split; [vm_compute; auto 20|]. split; [vm_compute; auto 20|].
  split; [vm_compute; reflexivity|]. split; vm_compute; reflexivity.
Qed.
Print Assumptions C43_shifted_statics_refuted.

(** ** C97: the entries of the table of functions.
    [at_offset l k e]: the directive of [l] at byte [k] is [e]. *)
Definition at_offset (l : list (Z * list Z)) (k w : Z) (e : list Z) : Prop :=
  exists u v, l = u ++ (w, e) :: v /\ bytes_of u = k.
(** A field that holds an address: 8 bytes, or 4 and 4 zeroes *)
Definition address_at (o : gopts) (l : list (Z * list Z)) (k : Z) (e : list Z) : Prop :=
  if go_32 o then at_offset l k 4 (line_of ".long " e) /\ at_offset l (k + 4) 4 (line_of ".long " (str "0"))
  else at_offset l k 8 (line_of ".quad " e).
Theorem C97_info_entry : forall o bnm nm orig n, exists pre es post,
  new_function_info o bnm nm orig n = pre ++ concat (map snd es) ++ post
  (* as many bytes as the loader reads *)
  /\ bytes_of es = EngineModel.info_size
  (* at the places of the fields: the addresses and the lengths of the two functions, the name *)
  /\ match orig with
     | Some d => address_at o es 0 d /\ at_offset es 16 4 (line_of ".long " (d ++ str ".Lfe - " ++ d))
     | None => at_offset es 0 8 (line_of ".quad " (str "0")) /\ at_offset es 16 4 (line_of ".long " (str "0"))
     end
  /\ address_at o es 8 bnm /\ at_offset es 20 4 (line_of ".long " (nm ++ str ".kpatch_end - " ++ bnm))
  /\ (exists tab, address_at o es 24 tab /\ exists u v, pre = u ++ label_of tab ++ line_of ".string " (34 :: bnm ++ [34]) ++ v)
  (* no flags *)
  /\ at_offset es 40 4 (line_of ".long " (str "0")).
Proof.
  intros o bnm nm orig n. pose proof (info_text o n bnm nm orig) as H. unfold info_of in H.
  set (tab := str "kpatch_strtab" ++ str (NilZero.string_of_int (Z.to_int n))) in H.
  match type of H with context [map snd ?l] => set (es := l) in H end.
  exists (line_of ".pushsection .kpatch.strtab,""a"",@progbits" [] ++ label_of tab
      ++ line_of ".string " (34 :: bnm ++ [34]) ++ line_of ".popsection" []
      ++ line_of ".pushsection .kpatch.info,""a"",@progbits" [] ++ label_of (nm ++ str ".Lpi")), es, (line_of ".popsection" [] ++ [10]).
  split; [rewrite H, <- !app_assoc; reflexivity|]. clear H. clearbody tab.
  Ltac off k := match goal with |- exists u v, ?L = _ /\ _ => exists (firstn k L), (skipn (S k) L); split; reflexivity end.
  Ltac offs := first [off 0%nat|off 1%nat|off 2%nat|off 3%nat|off 4%nat|off 5%nat|off 6%nat|off 7%nat|off 8%nat|off 9%nat].
  subst es. unfold entry_of, address_at, address, at_offset. destruct orig as [d|], (go_32 o); cbn [app]; (split; [reflexivity|]).
  all: repeat match goal with
       | |- exists tab : list Z, _ => exists tab
       | |- exists u v, line_of _ _ ++ _ = _ => eexists; eexists; reflexivity
       | |- _ /\ _ => split
       end; offs.
Qed.
Print Assumptions C97_info_entry.
(** Nothing is assumed; a function [bar] that replaces [foo]: the entry of [foo] *)
Example C97_hyps : new_function_info opt (str "foo.kpatch") (str "foo") (Some (str "foo")) 1 <> [].
Proof. vm_compute. discriminate. Qed.

(** ** C98: which symbols the options select.
    An option is a list of pieces with commas between them, a piece a symbol or a file
    and a symbol with a colon between them. *)
Inductive pieces_of (c : Z) : list (list Z) -> list Z -> Prop :=
| po_one : forall p, ~ In c p -> pieces_of c [p] p
| po_more : forall p q ps s, ~ In c p -> pieces_of c (q :: ps) s -> pieces_of c (p :: q :: ps) (p ++ c :: s).
Definition piece_entry (p : list Z) (x : option (list Z) * list Z) : Prop :=
  (~ In 58 p /\ x = (None, p)) \/ exists f s, p = f ++ 58 :: s /\ ~ In 58 f /\ x = (Some f, s).
Definition filled (p : list Z) : bool := match p with [] => false | _ => true end.
Lemma split_at_pieces c s : exists p ps, split_at c s = p :: ps /\ pieces_of c (p :: ps) s.
Proof.
  induction s as [|x s IH]; cbn [split_at]; [exists [], []; split; auto; apply po_one; auto|].
  destruct IH as (p & ps & -> & H). destruct (x =? c) eqn:E.
  - apply Z.eqb_eq in E as ->. exists [], (p :: ps). split; auto. apply (po_more c [] p ps s); auto.
  - apply Z.eqb_neq in E. exists (x :: p), ps. split; auto. inversion H as [? N|? q qs t N H']; subst.
    + apply po_one. cbn. intros [|]; auto.
    + apply (po_more c (x :: p)); auto. cbn. intros [|]; auto.
Qed.
Lemma before_spec c : forall s, match before c s with Some (a, b) => s = a ++ c :: b /\ ~ In c a | None => ~ In c s end.
Proof.
  induction s as [|x s IH]; cbn [before]; auto. destruct (x =? c) eqn:E.
  - apply Z.eqb_eq in E as ->. split; auto.
  - apply Z.eqb_neq in E. destruct (before c s) as [[a b]|]; [destruct IH as (-> & N); split; auto|]; cbn; intros [|]; auto.
Qed.
Lemma sym_desc_entry p : piece_entry p (sym_desc p).
Proof.
  unfold sym_desc, piece_entry. pose proof (before_spec 58 p) as H. destruct (before 58 p) as [[f s]|]; [right; exists f, s|left]; intuition.
Qed.
Theorem C98_option : forall l arg, exists ps es, pieces_of 44 ps arg /\ Forall2 piece_entry (filter filled ps) es
  /\ ((length (l ++ es) <= 32)%nat -> parse_sym_list l arg = Ok (l ++ es))
  /\ ((length (l ++ es) > 32)%nat -> parse_sym_list l arg = Crash).
Proof.
  intros l arg. destruct (split_at_pieces 44 arg) as (p & ps & E & H). exists (p :: ps), (map sym_desc (filter filled (p :: ps))). split; auto. split.
  - clear. induction (filter filled (p :: ps)) as [|x q IH]; constructor; auto using sym_desc_entry.
  - assert (Es : strtok 44 arg = filter filled (p :: ps)) by (unfold strtok; rewrite E; apply filter_ext; intros [|]; reflexivity).
    unfold parse_sym_list. rewrite Es. split; intros L; [apply Nat.ltb_ge in L|apply Nat.ltb_lt in L]; cbv zeta; unfold text, symlist in *; rewrite L; reflexivity.
Qed.
Print Assumptions C98_option.
Example C98_option_example : parse_sym_list [] (str "foo,a.c:bar") = Ok [(None, str "foo"); (Some (str "a.c"), str "bar")].
Proof. reflexivity. Qed.
(** The arrays for the options have 32 elements, and nothing is checked. *)
Theorem C98_option_refuted : exists arg, parse_sym_list [] arg = Crash.
Proof. exists (concat (repeat (str "f,") 33)). vm_compute. reflexivity. Qed.
Print Assumptions C98_option_refuted.

(** A symbol is selected in a file whose name begins with the one given. *)
Theorem C98_list_partial : forall base sym l, in_syms_list None base sym l = true <->
  exists x, In x l /\ snd x = sym /\ forall f, fst x = Some f -> exists r, base = f ++ r.
Proof.
  intros base sym l. cbn [in_syms_list]. rewrite existsb_exists. split; intros (x & I & H); exists x; split; auto.
  - apply andb_true_iff in H as (H & E). apply same_spec in E. split; auto. intros f Ef. rewrite Ef in H. now apply prefix_of_spec.
  - destruct H as (E & H). apply andb_true_iff. split; [|now apply same_spec]. destruct (fst x) as [f|]; auto. apply prefix_of_spec. auto.
Qed.
Print Assumptions C98_list_partial.
Example C98_list_example : in_syms_list None (str "a.c") (str "bar") [(Some (str "a.c"), str "bar")] = true
  /\ in_syms_list None (str "b.c") (str "bar") [(Some (str "a.c"), str "bar")] = false.
Proof. now split. Qed.
(** So main.c:foo selects foo of main.cpp too. *)
Theorem C98_other_file_refuted : exists f base sym, base <> f /\ in_syms_list None base sym [(Some f, sym)] = true.
Proof. exists (str "main.c"), (str "main.cpp"), (str "foo"). split; [discriminate|reflexivity]. Qed.
Print Assumptions C98_other_file_refuted.

(** With a configuration file, the functions that no line of it begins with are left out. *)
Definition conf_of (ls : list (list Z)) : list Z := concat (map (fun l => l ++ [10]) ls).
Definition conf_line (l : list Z) : Prop := ~ In 10 l /\ ~ In 0 l /\ Z.of_nat (length l) < 1023.
Lemma conf_lines_spec : forall ls n, Forall conf_line ls -> (length (conf_of ls) <= n)%nat -> conf_lines n (conf_of ls) = map (fun l => l ++ [10]) ls.
Proof.
  induction ls as [|l ls IH]; intros n F L; [destruct n; reflexivity|]. inversion F as [|? ? (N10 & N0 & Lx) F']; subst.
  change (conf_of (l :: ls)) with ((l ++ [10]) ++ conf_of ls) in *. rewrite <- app_assoc in *. cbn [app] in *.
  rewrite app_length in L. cbn [length] in L. destruct n as [|n]; [lia|].
  assert (Ne : exists c r, l ++ 10 :: conf_of ls = c :: r) by (destruct l as [|c0 l0]; [exists 10, (conf_of ls)|exists c0, (l0 ++ 10 :: conf_of ls)]; reflexivity). destruct Ne as (c & r & Ne).
  cbn [conf_lines]. rewrite Ne, <- Ne. rewrite (fgets_line (Z.to_nat 1023) l (conf_of ls)); auto; [|lia].
  cbn [map]. f_equal; [|apply IH; auto; lia]. apply upto_nul_none. rewrite in_app_iff. cbn. intros [|[|[]]]; auto. discriminate.
Qed.
Theorem C98_config : forall l1 ls base sym l, Forall conf_line (l1 :: ls) -> (exists c r, l1 = c :: r /\ c <> 32) ->
  ~ In 10 sym -> sym <> [] -> Z.of_nat (length sym) <= 1024 ->
  (in_syms_list (Some (conf_of (l1 :: ls))) base sym l = false <-> exists x r, In x (l1 :: ls) /\ x = sym ++ r).
Proof.
  intros l1 ls base sym l F (c & r & E & N32) N10 Ne L. unfold in_syms_list.
  assert (Cf : configured (Some (conf_of (l1 :: ls))) = true).
  { rewrite E. cbn. inversion F as [|? ? (X & _) _]; subst. apply negb_true_iff, orb_false_iff. split; apply Z.eqb_neq; auto.
    intros ->. apply X. now left. }
  rewrite Cf. rewrite negb_false_iff. unfold in_patch_func_file. rewrite (conf_lines_spec (l1 :: ls)); auto.
  rewrite !andb_true_iff, existsb_exists. split.
  - intros (_ & x & I & P). apply in_map_iff in I as (y & <- & I). apply prefix_of_spec in P as (t & P). exists y.
    destruct (exists_last (l := t)) as (t' & z & Et); [intros ->; rewrite app_nil_r in P; apply N10; rewrite <- P; apply in_or_app; right; now left|].
    exists t'. split; auto. rewrite Et, app_assoc in P. apply app_inj_tail in P. tauto.
  - intros (x & t & I & ->). split; [split; [apply Nat.ltb_lt; destruct sym; [congruence|cbn; lia]|now apply Z.leb_le]|].
    exists ((sym ++ t) ++ [10]). split; [apply in_map_iff; eauto|]. apply prefix_of_spec. exists (t ++ [10]). now rewrite app_assoc.
Qed.
Print Assumptions C98_config.
Example C98_config_example : in_syms_list (Some (conf_of [str "foo"; str "bar"])) (str "a.c") (str "bar") [] = false
  /\ in_syms_list (Some (conf_of [str "foo"; str "bar"])) (str "a.c") (str "baz") [] = true.
Proof. now split. Qed.
(** So a line foobar lets foo be patched too. *)
Theorem C98_config_refuted : exists c base sym, ~ In sym c /\ in_syms_list (Some (conf_of c)) base sym [] = false.
Proof. exists [str "foobar"], (str "a.c"), (str "foo"). split; [intros [H|[]]; discriminate|reflexivity]. Qed.
Print Assumptions C98_config_refuted.
(** A file that is empty or begins with an empty line or a blank counts for nothing. *)
Theorem C98_no_config : forall c base sym l, c = [] \/ (exists r, c = 10 :: r \/ c = 32 :: r) ->
  in_syms_list (Some c) base sym l = true <-> exists x, In x l /\ snd x = sym /\ forall f, fst x = Some f -> exists r, base = f ++ r.
Proof.
  intros c base sym l H. rewrite <- C98_list_partial. destruct H as [->|(r & [->| ->])]; reflexivity.
Qed.
Print Assumptions C98_no_config.
Example C98_no_config_example : in_syms_list (Some (str " foo")) (str "a.c") (str "bar") [(None, str "bar")] = true.
Proof. reflexivity. Qed.
