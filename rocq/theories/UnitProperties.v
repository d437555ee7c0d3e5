(** C132: what a compiler writes for functions and variables is cut into exactly those blocks. *)
From Coq Require Import String.
From Verif Require Import Base StorageModel TextModel TextSpec ParseModel UnitSpec UnitProofs UnitProofs2.
Open Scope list_scope.

Lemma sections_typed a : forall ls tab cur xs tab', sections_from a tab cur ls = Ok (xs, tab') -> Forall (typed a) xs.
Proof.
  induction ls as [|y ls IH]; intros tab cur xs tab' E; cbn [sections_from] in E; [injection E as <- _; constructor|].
  destruct (next_section tab (parse_ctype a (st_text y)) (st_text y) cur) as [p| | |]; try discriminate. cbn [rbind] in E.
  destruct (sections_from a (snd p) (fst p) ls) as [q| | |] eqn:Q; try discriminate. cbn [rbind] in E. injection E as <- _. constructor; [reflexivity|]. destruct q as (q1, q2). exact (IH _ _ _ _ Q).
Qed.

(** [ss]: the statements of the file, the first of which is never part of a block; [us]: the functions and variables the rest of the lines is made of. *)
Theorem C132_units a sp fw ows dws : In (a, sp, fw, ows, dws) compilers ->
  forall ss tab tab' x us, init_sections a tab ss = Ok (x :: concat (map u_lines us), tab') ->
  Forall (u_ok sp fw ows dws) us -> NoDup (map u_name us) ->
  exists bs, cblocks_init a (x :: concat (map u_lines us)) = Ok (x :: concat (map u_lines us), bs) /\ cut_as 1 us bs.
Proof.
  intros I ss tab tab' x us E F ND. pose proof (compilers_fit _ _ _ _ _ I) as A.
  assert (T : Forall (typed a) (all_lines us)).
  { unfold init_sections in E. destruct ss as [|s ss]; [discriminate|]. destruct (find_section tab (str ".text")) as [t|]; [|discriminate].
    destruct (sections_from a tab t ss) as [q| | |] eqn:Q; try discriminate. cbn [rbind] in E. injection E as _ Eq _. destruct q as (q1, q2). cbn in Eq. subst q1. exact (sections_typed _ _ _ _ _ _ Q). }
  destruct (units_cut a fw ows dws sp A us 1%nat [] (length (all_lines us)) F T ND) as (bs & B & C); [intros c []|lia|].
  exists bs. split; [|exact C]. cbn [cblocks_init]. unfold all_lines in B. unfold cblocks_init. rewrite B. reflexivity.
Qed.
Print Assumptions C132_units.

(** A file with a static variable, a function with an unlikely part and a global variable *)
Definition stm (l : list string) : list stmt := map (fun s => {| st_text := str s; st_num := 0; st_own := true |}) l.
Definition c_v1 := ["	.data"; "	.align	4"; "	.type	count, @object"; "	.size	count, 4"; "count:"; "	.long	1"]%string.
Definition c_f := ["	.text"; "	.p2align	4,,15"; "	.globl	run"; "	.type	run, @function"; "run:"; "	callq	step"; "	.section	.text.unlikely,""ax"",@progbits"; "	.type	run.cold, @function"; "run.cold:";
                   "	callq	abort"; "	.text"; "	.size	run, .-run"; "	.section	.text.unlikely"; "	.size	run.cold, .-run.cold"]%string.
Definition c_v2 := ["	.globl	table"; "	.data"; "	.type	table, @object"; "	.size	table, 16"; "table:"; "	.quad	run"; "	.quad	0"]%string.
Definition c_lines (i n : nat) : list line := match init_sections px86 predefined (stm ("	.file	""x.c""" :: c_v1 ++ c_f ++ c_v2)%string) with Ok (ls, _) => firstn n (skipn i ls) | _ => [] end.
Definition c_us := [UVar false (str "count") (c_lines 1 6); UFun true (str "run") (c_lines 7 14); UVar true (str "table") (c_lines 21 7)].
Definition dl : line := {| l_text := []; l_num := 0; l_type := DText; l_sect := hd (Sect [] None false None) predefined |}.
Lemma name_lit c r : 57 < c -> Forall (fun d => 57 < d) (c :: r) -> Forall (fun d => ~ In d asm_delims) (c :: r) -> name_ok (c :: r).
Proof.
  intros H2 H3 H4. split; [exists c, r; repeat split; lia|]. split; [exact H4|].
  assert (D : ~ In 46 (c :: r)) by (intros I; rewrite Forall_forall in H3; specialize (H3 _ I); lia).
  split; [intros I; apply D; cbn in I; repeat (destruct I as [<-|I]; [left; reflexivity|]); destruct I|].
  split; intros u v E; apply D; rewrite E; apply in_or_app; right; left; reflexivity.
Qed.
Local Ltac nm := apply name_lit; [reflexivity|repeat constructor|repeat constructor; cbn; intuition discriminate].
Local Ltac sy := unfold says; vm_compute; reflexivity.
Example C132_case : In (px86, true, str "@function", [str "@object"; str "@gnu_unique_object"], map str [".byte"; ".value"; ".short"; ".word"; ".long"; ".int"; ".4byte"; ".quad"; ".ascii"; ".asciz"; ".string"; ".zero"; ".float"; ".single"; ".double"; ".uleb128"; ".sleb128"]%string) compilers
  /\ (exists x tab', init_sections px86 predefined (stm ("	.file	""x.c""" :: c_v1 ++ c_f ++ c_v2)%string) = Ok (x :: concat (map u_lines c_us), tab'))
  /\ Forall (u_ok true (str "@function") [str "@object"; str "@gnu_unique_object"] (map str [".byte"; ".value"; ".short"; ".word"; ".long"; ".int"; ".4byte"; ".quad"; ".ascii"; ".asciz"; ".string"; ".zero"; ".float"; ".single"; ".double"; ".uleb128"; ".sleb128"]%string)) c_us
  /\ NoDup (map u_name c_us).
Proof.
  split; [left; reflexivity|]. split; [eexists _, _; vm_compute; reflexivity|]. split.
  - repeat (apply Forall_cons; [|]); try apply Forall_nil; (split; [nm|]); cbn [u_name].
    + set (L := c_lines 1 6). exists [], [nth 0 L dl], [nth 1 L dl], (nth 2 L dl), (nth 3 L dl), (nth 4 L dl), [nth 5 L dl], (str "@object"), (str "4").
      split; [vm_compute; reflexivity|]. split; [reflexivity|]. split; [right; eexists; split; [reflexivity|]; split; [left; sy|vm_compute; reflexivity]|].
      split; [repeat constructor; exists (str "4"); left; sy|]. split; [left; reflexivity|]. split; [sy|]. split; [sy|]. split; [sy|]. split; [vm_compute; reflexivity|].
      repeat constructor. exists (str ".long"), 49, []. split; [cbn; repeat (first [left; reflexivity|right])|]. repeat (split; [discriminate|]). sy.
    + right. split; [reflexivity|]. set (L := c_lines 7 14). exists (nth 0 L dl), [nth 1 L dl], [nth 2 L dl], (nth 3 L dl), (nth 4 L dl), [nth 5 L dl; nth 6 L dl], (nth 7 L dl), [nth 8 L dl; nth 9 L dl; nth 10 L dl], (nth 11 L dl), [nth 12 L dl], (nth 13 L dl), [], (str ".-run"), (str ".-run.cold").
      split; [vm_compute; reflexivity|]. split; [split; [left; sy|vm_compute; reflexivity]|]. split; [repeat constructor; exists (str "4,,15"); right; sy|]. split; [eexists; split; [reflexivity|sy]|]. split; [sy|]. split; [sy|].
      split; [repeat constructor; vm_compute; intuition discriminate|]. split; [intros u v E; assert (D : In 46 (str "run")) by (rewrite E; apply in_or_app; right; left; reflexivity); vm_compute in D; intuition discriminate|]. split; [constructor|]. split; [sy|]. split; [sy|sy].
    + set (L := c_lines 21 7). exists [nth 0 L dl], [nth 1 L dl], [], (nth 2 L dl), (nth 3 L dl), (nth 4 L dl), [nth 5 L dl; nth 6 L dl], (str "@object"), (str "16").
      split; [vm_compute; reflexivity|]. split; [eexists; split; [reflexivity|sy]|]. split; [right; eexists; split; [reflexivity|]; split; [left; sy|vm_compute; reflexivity]|].
      split; [constructor|]. split; [left; reflexivity|]. split; [sy|]. split; [sy|]. split; [sy|]. split; [vm_compute; reflexivity|].
      repeat constructor; [exists (str ".quad"), 114, (str "un")|exists (str ".quad"), 48, []]; (split; [cbn; repeat (first [left; reflexivity|right])|]); repeat (split; [discriminate|]); sy.
  - repeat constructor; cbn; intuition discriminate.
Qed.

(** On RISC-V .ascii is not known to hold bytes: the variable is cut before it. *)
Theorem C132_riscv_ascii_refuted : exists ls tab ls' bs b,
  init_sections priscv predefined (stm [""; "	.data"; "	.type	v, @object"; "	.size	v, 3"; "v:"; "	.ascii	""abc"""]%string) = Ok (ls, tab)
  /\ cblocks_init priscv ls = Ok (ls', bs) /\ In b bs /\ txt (b_name b) = str "v" /\ (b_start b, b_end b) = (1, 5)%nat /\ length ls = 6%nat.
Proof. eexists _, _, _, _, _. split; [vm_compute; reflexivity|]. split; [vm_compute; reflexivity|]. split; [left; reflexivity|]. repeat split. Qed.
Print Assumptions C132_riscv_ascii_refuted.

(** A global variable followed by a variable of the same section that is not global: taken for one that is not. *)
Theorem C132_global_lost_refuted : exists ls tab ls' bs b,
  init_sections px86 predefined (stm [""; "	.globl	v"; "	.data"; "	.type	v, @object"; "	.size	v, 4"; "v:"; "	.long	1"; "	.type	w, @object"; "	.size	w, 4"; "w:"; "	.long	2"]%string) = Ok (ls, tab)
  /\ cblocks_init px86 ls = Ok (ls', bs) /\ In b bs /\ txt (b_name b) = str "v" /\ (b_start b, b_end b) = (1, 7)%nat /\ b_globl b = false.
Proof. eexists _, _, _, _, _. split; [vm_compute; reflexivity|]. split; [vm_compute; reflexivity|]. split; [left; reflexivity|]. repeat split. Qed.
Print Assumptions C132_global_lost_refuted.

(** On ARM the unlikely part is not known: what is behind the function's .size is outside the function. *)
Theorem C132_arm_cold_refuted : exists ls tab ls' bs b,
  init_sections parm predefined (stm [""; "	.text"; "	.type	f, %function"; "f:"; "	bl	g"; "	.section	.text.unlikely"; "	.type	f.cold, %function"; "f.cold:"; "	bl	abort"; "	.text"; "	.size	f, .-f"; "	.section	.text.unlikely"; "	.size	f.cold, .-f.cold"]%string) = Ok (ls, tab)
  /\ cblocks_init parm ls = Ok (ls', bs) /\ In b bs /\ txt (b_name b) = str "f" /\ (b_start b, b_end b) = (1, 11)%nat /\ length ls = 13%nat.
Proof. eexists _, _, _, _, _. split; [vm_compute; reflexivity|]. split; [vm_compute; reflexivity|]. split; [left; reflexivity|]. repeat split. Qed.
Print Assumptions C132_arm_cold_refuted.
