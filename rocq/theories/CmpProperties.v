(** C43: two blocks found equal have the same code.  See DESIGN.md. *)
From Coq Require Import String.
From Verif Require Import Base BaseProofs StorageModel TextModel TextSpec TextProofs ParseModel
  RenameModel RenameSpec RenameProofs CmpModel CmpSpec CmpProofs.
Open Scope list_scope.

(** Functions and variables: blocks found equal have, apart from lines without code, lines
    that pair up with corresponding tokens in sections of the same name; what else is let
    pass is comments and the excuses of [same_code]. *)
Theorem C43_equal_blocks_same_code c l0 l1 : ce_sect c = true -> ce_rename c = true ->
  cblock_cmp c l0 l1 = Ok false ->
  same_code {| ar_type := ce_type c; ar_nm0 := ce_nm0 c; ar_nm1 := ce_nm1 c; ar_dir0 := ce_dir0 c; ar_dir1 := ce_dir1 c;
               ar_m0 := rename_find (ce_r0 c); ar_m1 := rename_find (ce_r1 c); ar_rhel5 := ce_rhel5 c |} l0 l1.
Proof. intros S R H. exact (cmp_fuel_same c S R _ _ _ H). Qed.
Print Assumptions C43_equal_blocks_same_code.

(** The other blocks: the texts are equal. *)
Theorem C43_equal_other_same_text c l0 l1 : ce_sect c = false -> ce_rename c = false -> ce_type c = BOther ->
  cblock_cmp c l0 l1 = Ok false -> same_text l0 l1.
Proof. intros S R T H. exact (cmp_fuel_text c S R T _ _ _ H). Qed.
Print Assumptions C43_equal_other_same_text.

(** Every comparison ends and answers. *)
Theorem C43_comparison_ends c l0 l1 : exists b, cblock_cmp c l0 l1 = Ok b.
Proof. apply cmp_total. lia. Qed.
Print Assumptions C43_comparison_ends.

(** The other way round: when the lines of code pair up, in sections of the same name,
    as comments or with corresponding tokens, the blocks are found equal.  Lines of code
    are those that are not empty and do not change the section or make a symbol global. *)
Theorem C42_same_blocks_found_equal c l0 l1 k0 k1 :
  let code ls k := exists m, Forall2 (fun x (b : bool) => if b then ~ no_code x else no_code x) ls m
                             /\ k = map fst (filter snd (combine ls m)) in
  ce_sect c = true -> ce_rename c = true -> code l0 k0 -> code l1 k1 ->
  Forall2 (fun x0 x1 => same_section x0 x1
                        /\ ((l_type x0 = DComment /\ l_type x1 = DComment)
                            \/ same_tokens (rename_find (ce_r0 c)) (rename_find (ce_r1 c)) (l_text x0) (l_text x1))) k0 k1 ->
  cblock_cmp c l0 l1 = Ok false.
Proof.
  intros code S R C0 C1 F.
  assert (X : forall ls k, code ls k -> k = filter code_line ls).
  { intros ls k (m & Fm & ->). clear F. induction Fm as [|x b ls m Hb Fm IH]; auto.
    cbn [combine filter snd]. 
    assert (E : code_line x = b).
    { unfold code_line. destruct b.
      - apply negb_true_iff. apply not_true_iff_false. intros Y. apply Hb.
        destruct (cmp_skip_split [x]) as (p & Fp & Ep). cbn in Ep. rewrite Y in Ep.
        destruct p; [discriminate|]. injection Ep as <- _. now inversion Fp.
      - apply negb_false_iff. apply not_false_iff_true. intros Y. destruct (cmp_skip_head [x] x []); auto.
        cbn. now rewrite Y. }
    rewrite E. destruct b; cbn [map fst]; [f_equal|]; exact IH. }
  apply cmp_alike; [lia|]. rewrite <- (X _ _ C0), <- (X _ _ C1).
  eapply Forall2_imp; [|exact F]. intros x y (A & B). split; auto. rewrite R. exact B.
Qed.
Print Assumptions C42_same_blocks_found_equal.

Definition ln (s : String.string) (d : dir) : line := {| l_text := str s; l_num := 1; l_type := d; l_sect := Sect (str ".text") None true None |}.
Definition env (t : btype) (nm : String.string) (r0 r1 : rtab) : cmpenv :=
  {| ce_type := t; ce_nm0 := str nm; ce_nm1 := str nm; ce_dir0 := str "/old"; ce_dir1 := str "/new";
     ce_r0 := r0; ce_r1 := r1; ce_rhel5 := false; ce_sect := true; ce_rename := true |}.
Example C43_case :
  cblock_cmp (env BFunc "f" [(str ".L3", str ".L5")] [])
    [ln "" DOther; ln "	jne	.L3" DOther; ln "	.text" DText; ln "# a" DComment; ln "	movl	$7, %edx" DOther; ln "	nop" DOther;
     ln "	call	__assert_fail@PLT" DOther]
    [ln "	jne  .L5" DOther; ln "# b" DComment; ln "" DOther; ln "	movl	$9, %edx" DOther; ln "	nop" DOther;
     ln "	call	__assert_fail@PLT" DOther; ln "	.globl f" DGlobl] = Ok false
  /\ cblock_cmp (env BFunc "f" [(str ".L3", str ".L5")] []) [ln "	jne	.L3" DOther] [ln "	jne	.L3" DOther] = Ok true
  /\ cblock_cmp (env BFunc "f" [] []) [ln "	movl	$7, %edx" DOther; ln "	call	foo" DOther]
       [ln "	movl	$9, %edx" DOther; ln "	call	foo" DOther] = Ok true.
Proof. vm_compute. auto. Qed.
Example C42_blocks_case :
  cblock_cmp (env BFunc "f" [] []) [ln "f:" DLabel; ln "	.globl f" DGlobl; ln "	ret" DOther] [ln "f:" DLabel; ln "	ret" DOther] = Ok false.
Proof. vm_compute. reflexivity. Qed.

Lemma differ r0 r1 (s0 s1 : text) : strcmp_after_rename r0 r1 s0 s1 = Ok true -> ~ same_tokens (rename_find r0) (rename_find r1) s0 s1.
Proof.
  intros H (ts0 & ts1 & T). destruct (strcmp_after_rename_spec r0 r1 s0 s1) as (b & E & Hb).
  rewrite E in H. injection H as ->. discriminate (proj2 Hb (ex_intro _ ts0 (ex_intro _ ts1 T))).
Qed.

(** A changed constant is not noticed when a function that is usually passed a line
    number is called within the next fifteen lines, whatever the constant is for. *)
Theorem C43_changed_constant_refuted : exists c l0 l1 i x0 x1,
  ce_sect c = true /\ ce_rename c = true /\ ce_type c = BFunc /\ cblock_cmp c l0 l1 = Ok false
  /\ nth_error l0 i = Some x0 /\ nth_error l1 i = Some x1 /\ length l0 = length l1
  /\ l_type x0 = DOther /\ ~ same_tokens (rename_find (ce_r0 c)) (rename_find (ce_r1 c)) (l_text x0) (l_text x1).
Proof.
  exists (env BFunc "f" [] []),
    [ln "	movl	$7, %edx" DOther; ln "	cmpl	%edx, %eax" DOther; ln "	jne	.L4" DOther; ln "	call	__assert_fail@PLT" DOther],
    [ln "	movl	$9, %edx" DOther; ln "	cmpl	%edx, %eax" DOther; ln "	jne	.L4" DOther; ln "	call	__assert_fail@PLT" DOther],
    0%nat, (ln "	movl	$7, %edx" DOther), (ln "	movl	$9, %edx" DOther).
  repeat (split; [vm_compute; reflexivity|]). apply differ. vm_compute. reflexivity.
Qed.
Print Assumptions C43_changed_constant_refuted.
(** Nor is a string that begins with the directory of the file and loses its final NUL. *)
Theorem C43_changed_string_refuted : exists c l0 l1 i x0 x1,
  ce_sect c = true /\ ce_rename c = true /\ ce_type c = BVar /\ cblock_cmp c l0 l1 = Ok false
  /\ nth_error l0 i = Some x0 /\ nth_error l1 i = Some x1 /\ length l0 = length l1
  /\ l_type x0 = DOther /\ (exists ts, has_tokens (l_text x0) (str ".string" :: ts)) /\ (exists ts, has_tokens (l_text x1) (str ".ascii" :: ts)).
Proof.
  exists (env BVar ".LC0" [] []), [ln "	.string	""/old/a.c""" DOther], [ln "	.ascii	""/new/a.c""" DOther],
    0%nat, (ln "	.string	""/old/a.c""" DOther), (ln "	.ascii	""/new/a.c""" DOther).
  repeat (split; [vm_compute; reflexivity|]). split; apply word_first; vm_compute; reflexivity.
Qed.
Print Assumptions C43_changed_string_refuted.
(** Nor are the bytes of a variable whose name begins with descriptor. *)
Theorem C43_changed_descriptor_refuted : exists c l0 l1 i x0 x1,
  ce_sect c = true /\ ce_rename c = true /\ ce_type c = BVar /\ cblock_cmp c l0 l1 = Ok false
  /\ nth_error l0 i = Some x0 /\ nth_error l1 i = Some x1 /\ length l0 = length l1
  /\ l_type x0 = DOther /\ ~ same_tokens (rename_find (ce_r0 c)) (rename_find (ce_r1 c)) (l_text x0) (l_text x1).
Proof.
  exists (env BVar "descriptor.1" [] []), [ln "	.byte	1" DOther], [ln "	.byte	2" DOther],
    0%nat, (ln "	.byte	1" DOther), (ln "	.byte	2" DOther).
  repeat (split; [vm_compute; reflexivity|]). apply differ. vm_compute. reflexivity.
Qed.
Print Assumptions C43_changed_descriptor_refuted.
(** A call through a renamed label is taken for a call of another label with the renamed
    name: the second file is not looked up when the first has no rename.  The tokens
    corresponding need not be the image of one another in both directions. *)
Theorem C43_one_sided_rename_refuted : exists r0 r1 s0 s1,
  strcmp_after_rename r0 r1 s0 s1 = Ok false /\ strcmp_after_rename r1 r0 s1 s0 = Ok true.
Proof.
  exists [(str ".L1", str ".L2")], [], (str "	jmp	.L1"), (str "	jmp	.L2"). split; vm_compute; reflexivity.
Qed.
Print Assumptions C43_one_sided_rename_refuted.
