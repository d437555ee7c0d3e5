(** C86: making moves go through the global offset table.  See DESIGN.md. *)
From Coq Require Import String.
From Verif Require Import Base BaseProofs StorageModel TextModel TextSpec TextProofs RenameModel RenameSpec RenameProofs
  GotSpec GotProofs.
Open Scope list_scope.

(** A load of a symbol into a 32-bit or 64-bit register becomes code with the same
    effect, whatever the kind of move loads from memory. *)
Theorem C86_load_keeps_meaning fl sym i v line :
  plain_flavor fl -> plain_symbol sym -> v = V64 \/ v = V32 -> instr_text (Load fl sym i v) line ->
  exists out code, str_do_gotpcrel line = Ok out /\ code_text code out
    /\ forall addr ld imm sto m, (forall s, 0 <= addr s < 2 ^ 64) ->
       same_but (fun _ => False) (run addr ld imm sto m code) (exec addr ld imm sto m (Load fl sym i v)).
Proof.
  intros Hf Hs Hv T. inversion T as [? ? ? ? r Hr| | | | | |]; subst.
  destruct (reg_full r i v Hr ltac:(tauto)) as (f & Ef & If).
  eexists _, [Got sym i; LoadAt fl i i v].
  split; [exact (load_text fl sym r i v Hf Hs Hr f Ef)|]. split.
  - constructor; [now constructor|]. constructor. now constructor.
  - intros addr ld imm sto m Ha. split; [|intros; reflexivity].
    intros j. cbn [run fold_left exec set_reg rg me]. destruct (Z.eqb_spec j i) as [->|]; auto.
    rewrite Z.eqb_refl. cbn [view_write]. rewrite (Z.mod_small (addr sym)) by auto.
    destruct Hv as [->| ->]; reflexivity.
Qed.
Print Assumptions C86_load_keeps_meaning.
Example C86_load_case :
  let line := str "	movl	counter(%rip), %r10d" in
  plain_flavor (str "l") /\ plain_symbol (str "counter") /\ instr_text (Load (str "l") (str "counter") 10 V32) line
  /\ str_do_gotpcrel line = Ok (str "	movq	counter@GOTPCREL(%rip), %r10" ++ 10 :: str "	movl	(%r10), %r10d").
Proof.
  split; [split; [repeat constructor; vm_compute; intuition discriminate|vm_compute; lia]|].
  split; [repeat split; [discriminate|repeat constructor; vm_compute; intuition discriminate|discriminate]|].
  split; [|vm_compute; reflexivity].
  apply (it_load (str "l") (str "counter") 10 V32 (str "%r10d")). apply (in_regs (10, V32, str "%r10d")). reflexivity.
Qed.

(** A load into a part of a register destroys the rest of the register ... *)
Theorem C86_load_narrow_refuted : exists fl sym i v line,
  plain_flavor fl /\ plain_symbol sym /\ instr_text (Load fl sym i v) line
  /\ exists out code, str_do_gotpcrel line = Ok out /\ code_text code out
  /\ exists addr ld imm sto m j, (forall s, 0 <= addr s < 2 ^ 64)
     /\ rg (run addr ld imm sto m code) j <> rg (exec addr ld imm sto m (Load fl sym i v)) j.
Proof.
  exists (str "b"), (str "flag"), 0, V8, (str "	movb	flag(%rip), %al").
  split; [split; [repeat constructor; vm_compute; intuition discriminate|vm_compute; lia]|].
  split; [repeat split; [discriminate|repeat constructor; vm_compute; intuition discriminate|discriminate]|].
  split; [apply (it_load (str "b") (str "flag") 0 V8 (str "%al")); apply (in_regs (0, V8, str "%al")); reflexivity|].
  exists (str "	movq	flag@GOTPCREL(%rip), %rax" ++ 10 :: str "	movb	(%rax), %al"), [Got (str "flag") 0; LoadAt (str "b") 0 0 V8].
  split; [vm_compute; reflexivity|]. split.
  - constructor; [apply (it_got (str "flag") 0 (str "%rax")); apply (in_regs (0, V64, str "%rax")); reflexivity|].
    constructor. apply (it_loadat (str "b") 0 (str "%rax") 0 V8 (str "%al"));
      [apply (in_regs (0, V64, str "%rax"))|apply (in_regs (0, V8, str "%al"))]; reflexivity.
  - exists (fun _ => 4096), (fun _ m a => m a), (fun _ => 0), (fun _ _ _ m => m), {| rg := fun _ => 256; me := fun _ => 7 |}, 0.
    split; [lia|]. vm_compute. discriminate.
Qed.
Print Assumptions C86_load_narrow_refuted.
(** ... and for some of them the code names a register that does not exist. *)
Theorem C86_load_register_refuted : exists fl sym i v line f,
  plain_flavor fl /\ plain_symbol sym /\ instr_text (Load fl sym i v) line
  /\ str_do_gotpcrel line = Ok ((str "	movq	" ++ sym ++ str "@GOTPCREL(%rip), " ++ f) ++ 10 :: str "	mov" ++ fl ++ str "	(" ++ f ++ str "), %sil")
  /\ ~ exists j w, names_reg f j w.
Proof.
  exists (str "b"), (str "flag"), 6, V8, (str "	movb	flag(%rip), %sil"), (str "%rix").
  split; [split; [repeat constructor; vm_compute; intuition discriminate|vm_compute; lia]|].
  split; [repeat split; [discriminate|repeat constructor; vm_compute; intuition discriminate|discriminate]|].
  split; [apply (it_load (str "b") (str "flag") 6 V8 (str "%sil")); apply (in_regs (6, V8, str "%sil")); reflexivity|].
  split; [vm_compute; reflexivity|]. intros (j & w & I).
  assert (C : existsb (fun y : Z * view * text => list_eqb (snd y) (str "%rix")) reg_names = false) by (vm_compute; reflexivity).
  assert (X : existsb (fun y : Z * view * text => list_eqb (snd y) (str "%rix")) reg_names = true).
  { apply existsb_exists. eexists. split; [exact I|]. vm_compute. reflexivity. }
  congruence.
Qed.
Print Assumptions C86_load_register_refuted.

(** Memory after a push: the word pushed is read back. *)
Lemma word_put m a x : forall n k, (Z.of_nat n + k = 8) -> 0 <= k ->
  word (put_word m a x) (a + k) n = (x / 256 ^ k) mod 256 ^ Z.of_nat n.
Proof.
  induction n as [|n IH]; intros k E Hk; [cbn; now rewrite Z.mod_1_r|].
  cbn [word]. replace (a + k + 1) with (a + (k + 1)) by lia. rewrite IH by lia.
  unfold put_word. replace (a <=? a + k) with true by (symmetry; apply Z.leb_le; lia).
  replace (a + k <? a + 8) with true by (symmetry; apply Z.ltb_lt; lia). cbn [andb].
  replace (a + k - a) with k by lia. rewrite Z.mod_mod by lia.
  rewrite Nat2Z.inj_succ, Z.pow_succ_r by lia. rewrite Z.rem_mul_r by (try apply Z.pow_pos_nonneg; lia).
  f_equal. f_equal. f_equal. rewrite Z.pow_add_r by lia. rewrite <- Z.div_div by (try apply Z.pow_pos_nonneg; lia).
  reflexivity.
Qed.
Lemma word_ext m m' : forall n a, (forall b, a <= b < a + Z.of_nat n -> m b = m' b) -> word m a n = word m' a n.
Proof.
  induction n as [|n IH]; intros a H; auto. cbn [word]. rewrite (H a) by lia. f_equal. f_equal. apply IH.
  intros b Hb. apply H. lia.
Qed.

(** A store of a register other than the stack pointer, or of a constant, becomes code
    with the same effect, except that the eight bytes below the stack are overwritten:
    for every kind of store that writes at most eight bytes at the symbol, if these are
    not the bytes below the stack. *)
Theorem C86_store_keeps_meaning fl sym s line :
  plain_flavor fl -> plain_symbol sym ->
  match s with
  | SReg i _ => i <> rsp
  | SImm w => w <> [] /\ Forall (fun c => ~ In c asm_delims) w /\ hd_error w <> Some 34
  end ->
  instr_text (Store fl s sym) line ->
  exists out code, str_do_gotpcrel line = Ok out /\ code_text code out
    /\ forall addr ld imm sto m, (forall s, 0 <= addr s < 2 ^ 64) -> regs_ok m ->
       (forall f x a m b, ~ (a <= b < a + 8) -> sto f x a m b = m b) ->
       (forall f x a m m' b, m b = m' b -> sto f x a m b = sto f x a m' b) ->
       addr sym + 8 <= rg m rsp - 8 \/ rg m rsp <= addr sym ->
       same_but (fun x => rg m rsp - 8 <= x < rg m rsp)
         (run addr ld imm sto m code) (exec addr ld imm sto m (Store fl s sym)).
Proof.
  intros Hf Hs Hsrc T. inversion T as [|? ? t ? Ht| | | | |]; subst.
  assert (S : source_ok t /\ is_global_rip_reference t = false
              /\ exists an ai, (if is_rax_reference t then str "%rbx" else str "%rax") = an /\ names_reg an ai V64
                 /\ ai <> rsp /\ match s with SReg i _ => i <> ai | SImm _ => True end).
  { assert (A0 : names_reg (str "%rax") 0 V64) by (apply (in_regs (0, V64, str "%rax")); reflexivity).
    assert (A3 : names_reg (str "%rbx") 3 V64) by (apply (in_regs (3, V64, str "%rbx")); reflexivity).
    destruct s as [i v|w].
    - change (names_reg t i v) in Ht. destruct (reg_word t i v Ht) as (W1 & W2 & W3).
      split; [now apply word_source|]. split; [exact (reg_not_rip t i v Ht)|].
      pose proof (reg_rax t i v Ht) as Rx. destruct (Z.eqb_spec i 0) as [->|].
      + exists (str "%rbx"), 3. rewrite Rx. repeat split; auto; discriminate.
      + exists (str "%rax"), 0. rewrite Rx. repeat split; auto; discriminate.
    - cbn in Ht. change (str "$" ++ w) with (36 :: w) in Ht. subst t. destruct Hsrc as (W1 & W2 & W3).
      split; [now apply dollar_source|]. split.
      + unfold is_global_rip_reference. apply andb_false_iff. left. apply andb_false_iff. right.
        unfold ends_with. apply not_true_iff_false. intros E. apply list_eqb_eq in E.
        assert (I : In 40 (map lower rip_suffix)) by (vm_compute; auto). rewrite <- E in I.
        apply in_map_iff in I as (c & Ec & Ic). unfold lower in Ec.
        assert (c = 40) by (destruct (Z.leb_spec 65 c), (Z.leb_spec c 90); cbn in Ec; lia). subst c.
        assert (I : In 40 (36 :: w)) by (rewrite <- (firstn_skipn (length (36 :: w) - length rip_suffix) (36 :: w)); apply in_or_app; auto).
        destruct I as [I|I]; [discriminate|]. rewrite Forall_forall in W2. apply (W2 40 I). unfold asm_delims; simpl; auto 20.
      + exists (str "%rax"), 0. unfold is_rax_reference. cbn [prefix_of Z.eqb Pos.eqb andb].
        rewrite andb_false_r. cbn [andb]. repeat split; auto; discriminate. }
  destruct S as (S1 & S2 & an & ai & Ea & Ia & Nrsp & Nsrc).
  eexists _, [Push ai; Got sym ai; StoreAt fl s ai; Pop ai].
  split; [exact (store_text fl sym t an Hf Hs S1 S2 (eq_sym Ea))|]. split.
  - constructor; [now constructor|]. constructor; [now constructor|]. constructor; [now constructor|].
    constructor. now constructor.
  - intros addr ld imm sto m Ha Hm L1 L2 Dis.
    set (sp := rg m rsp - 8).
    set (m1 := put_word (me m) sp (rg m ai)).
    assert (Ear : (ai =? rsp) = false) by now apply Z.eqb_neq.
    assert (Era : (rsp =? ai) = false) by (apply Z.eqb_neq; auto).
    assert (Hv : value imm {| rg := fun j => if j =? ai then addr sym else if j =? rsp then sp else rg m j; me := m1 |} s
                 = value imm m s).
    { destruct s as [i v|w]; [|reflexivity]. cbn [value rg]. cbn in Hsrc.
      replace (i =? ai) with false by (symmetry; now apply Z.eqb_neq).
      replace (i =? rsp) with false by (symmetry; now apply Z.eqb_neq). reflexivity. }
    assert (Sr : addr sym mod 2 ^ 64 = addr sym) by now apply Z.mod_small.
    set (x := value imm m s) in *.
    set (m2 := sto fl x (addr sym) m1).
    assert (Slot : word m2 sp 8 = rg m ai).
    { rewrite (word_ext m2 m1).
      - unfold m1. replace sp with (sp + 0) at 2 by lia. rewrite word_put by lia. cbn [Z.of_nat Pos.of_succ_nat].
        rewrite Z.pow_0_r, Z.div_1_r. apply Z.mod_small. apply Hm.
      - intros b Hb. unfold m2. apply L1. unfold sp in Hb. lia. }
    assert (R : run addr ld imm sto m [Push ai; Got sym ai; StoreAt fl s ai; Pop ai]
                = {| rg := fun j => if j =? ai then word m2 sp 8
                                    else if j =? rsp then sp + 8
                                    else if j =? ai then addr sym else if j =? rsp then sp else rg m j;
                     me := m2 |}).
    { unfold run. cbn [fold_left exec]. unfold set_reg at 2 3 4 5 6 7. cbn [rg me view_write].
      fold sp. rewrite Ear, Era, Z.eqb_refl. cbn [set_reg rg me]. rewrite ?Z.eqb_refl, ?Ear, ?Era, ?Sr. 
      fold m1. unfold set_reg. cbn [rg me view_write]. rewrite ?Z.eqb_refl, ?Ear, ?Era, ?Sr.
      rewrite Hv. reflexivity. }
    rewrite R. split.
    + intros j. cbn [rg exec]. destruct (Z.eqb_spec j ai) as [->|N1]; [exact Slot|].
      destruct (Z.eqb_spec j rsp) as [->|N2]; auto. unfold sp. lia.
    + intros y Hy. cbn [me exec]. unfold m2. fold x. apply L2. unfold m1, put_word, sp.
      destruct (Z.leb_spec (rg m rsp - 8) y), (Z.ltb_spec y (rg m rsp - 8 + 8)); cbn [andb]; auto. lia.
Qed.
Print Assumptions C86_store_keeps_meaning.
Example C86_store_case :
  let line := str "	movl	%eax, counter(%rip)" in
  plain_flavor (str "l") /\ plain_symbol (str "counter") /\ 0 <> rsp
  /\ instr_text (Store (str "l") (SReg 0 V32) (str "counter")) line
  /\ str_do_gotpcrel line
     = Ok (str "	pushq	%rbx" ++ 10 :: str "	movq	counter@GOTPCREL(%rip), %rbx" ++ 10
           :: str "	movl	%eax, (%rbx)" ++ 10 :: str "	popq	%rbx").
Proof.
  split; [split; [repeat constructor; vm_compute; intuition discriminate|vm_compute; lia]|].
  split; [repeat split; [discriminate|repeat constructor; vm_compute; intuition discriminate|discriminate]|].
  split; [discriminate|]. split; [|vm_compute; reflexivity].
  apply (it_store (str "l") (SReg 0 V32) (str "%eax") (str "counter")). apply (in_regs (0, V32, str "%eax")). reflexivity.
Qed.

(** What the code stores in the bytes below the stack a leaf function may be using. *)
Definition put_all (x : Z) (a : Z) (m : Z -> Z) : Z -> Z :=
  fun b => if (a <=? b) && (b <? a + 8) then (x / 256 ^ (b - a)) mod 256 else m b.
Theorem C86_store_red_zone_refuted : exists fl s sym line out code,
  plain_flavor fl /\ plain_symbol sym /\ instr_text (Store fl s sym) line
  /\ str_do_gotpcrel line = Ok out /\ code_text code out
  /\ exists addr ld imm m x, (forall s, 0 <= addr s < 2 ^ 64) /\ regs_ok m
     /\ me (run addr ld imm (fun _ => put_all) m code) x <> me (exec addr ld imm (fun _ => put_all) m (Store fl s sym)) x.
Proof.
  exists (str "q"), (SReg 1 V64), (str "n"), (str "	movq	%rcx, n(%rip)").
  exists (str "	pushq	%rax" ++ 10 :: str "	movq	n@GOTPCREL(%rip), %rax" ++ 10
           :: str "	movq	%rcx, (%rax)" ++ 10 :: str "	popq	%rax").
  exists [Push 0; Got (str "n") 0; StoreAt (str "q") (SReg 1 V64) 0; Pop 0].
  assert (A : names_reg (str "%rax") 0 V64) by (apply (in_regs (0, V64, str "%rax")); reflexivity).
  assert (C : names_reg (str "%rcx") 1 V64) by (apply (in_regs (1, V64, str "%rcx")); reflexivity).
  split; [split; [repeat constructor; vm_compute; intuition discriminate|vm_compute; lia]|].
  split; [repeat split; [discriminate|repeat constructor; vm_compute; intuition discriminate|discriminate]|].
  split; [exact (it_store (str "q") (SReg 1 V64) (str "%rcx") (str "n") C)|].
  split; [vm_compute; reflexivity|]. split.
  - constructor; [exact (it_push 0 (str "%rax") A)|]. constructor; [exact (it_got (str "n") 0 (str "%rax") A)|].
    constructor; [exact (it_storeat (str "q") (SReg 1 V64) (str "%rcx") 0 (str "%rax") A C)|].
    constructor. exact (it_pop 0 (str "%rax") A).
  - exists (fun _ => 4096), (fun _ m a => m a), (fun _ => 0), {| rg := fun i => if i =? 4 then 65536 else 0; me := fun _ => 7 |}, 65530.
    split; [lia|]. split; [intros j; cbn; destruct (j =? 4); lia|]. vm_compute. discriminate.
Qed.
Print Assumptions C86_store_red_zone_refuted.

(** A store of the stack pointer stores a number that is eight too small. *)
Theorem C86_store_stack_pointer_refuted : exists fl sym line out code,
  plain_flavor fl /\ plain_symbol sym /\ instr_text (Store fl (SReg rsp V64) sym) line
  /\ str_do_gotpcrel line = Ok out /\ code_text code out
  /\ forall addr ld imm m, (forall s, 0 <= addr s < 2 ^ 64) -> regs_ok m -> 8 <= rg m rsp ->
     (addr sym + 8 <= rg m rsp - 8 \/ rg m rsp <= addr sym) ->
     word (me (run addr ld imm (fun _ => put_all) m code)) (addr sym) 8 = rg m rsp - 8.
Proof.
  exists (str "q"), (str "n"), (str "	movq	%rsp, n(%rip)").
  exists (str "	pushq	%rax" ++ 10 :: str "	movq	n@GOTPCREL(%rip), %rax" ++ 10
           :: str "	movq	%rsp, (%rax)" ++ 10 :: str "	popq	%rax").
  exists [Push 0; Got (str "n") 0; StoreAt (str "q") (SReg rsp V64) 0; Pop 0].
  assert (A : names_reg (str "%rax") 0 V64) by (apply (in_regs (0, V64, str "%rax")); reflexivity).
  assert (C : names_reg (str "%rsp") 4 V64) by (apply (in_regs (4, V64, str "%rsp")); reflexivity).
  split; [split; [repeat constructor; vm_compute; intuition discriminate|vm_compute; lia]|].
  split; [repeat split; [discriminate|repeat constructor; vm_compute; intuition discriminate|discriminate]|].
  split; [exact (it_store (str "q") (SReg rsp V64) (str "%rsp") (str "n") C)|].
  split; [vm_compute; reflexivity|]. split.
  - constructor; [exact (it_push 0 (str "%rax") A)|]. constructor; [exact (it_got (str "n") 0 (str "%rax") A)|].
    constructor; [exact (it_storeat (str "q") (SReg rsp V64) (str "%rsp") 0 (str "%rax") A C)|].
    constructor. exact (it_pop 0 (str "%rax") A).
  - intros addr ld imm m Ha Hm H8 Dis. unfold run. cbn [fold_left exec].
    unfold set_reg at 1. cbn [me]. unfold set_reg. cbn [rg me view_write value view_read Z.eqb rsp Pos.eqb].
    rewrite (Z.mod_small (addr _)) by auto.
    pose proof (word_put (put_word (me m) (rg m 4 - 8) (rg m 0)) (addr (str "n")) (rg m 4 - 8) 8 0 eq_refl ltac:(lia)) as W.
    rewrite Z.add_0_r, Z.pow_0_r, Z.div_1_r in W. cbn [Z.of_nat Pos.of_succ_nat] in W.
    rewrite Z.mod_small in W by (specialize (Hm 4); change (256 ^ 8) with (2 ^ 64); unfold rsp in H8; lia). 
    etransitivity; [|exact W]. apply word_ext. intros b Hb.
    rewrite Z.mod_small by (specialize (Hm 4); unfold rsp in H8 |- *; lia). reflexivity.
Qed.
Print Assumptions C86_store_stack_pointer_refuted.

(** A line whose first token does not begin with the letters of a move is kept, and so
    is a line that does not mention the instruction pointer. *)
Theorem C86_other_lines_unchanged line t ts :
  has_tokens line (t :: ts) -> (forall r, t <> str "mov" ++ r) -> str_do_gotpcrel line = Ok line.
Proof.
  intros T N. apply has_tokens_toks in T. inversion T as [|s u s' us E Q]; subst.
  unfold str_do_gotpcrel. rewrite E. destruct (starts (txt u) (str "mov")) eqn:St; [|reflexivity].
  apply starts_spec in St as (r & St). now destruct (N r).
Qed.
Print Assumptions C86_other_lines_unchanged.
Example C86_other_case : has_tokens (str "	leaq	counter(%rip), %rax") [str "leaq"; str "counter"; str "("; str "%rip"; str ")"; str ","; str "%rax"].
Proof.
  apply has_tokens_toks.
  destruct (tokens_fuel 10 (@Some text (str "	leaq	counter(%rip), %rax"))) as [ts| | |] eqn:E; [|vm_compute in E; discriminate..].
  pose proof (toks_fuel _ _ _ E) as T. vm_compute in E. injection E as <-. exact T.
Qed.

(** A string move, which has no operands, makes the program read through a null pointer. *)
Theorem C86_string_move_refuted : exists line, has_tokens line [str "movsq"] /\ str_do_gotpcrel line = Crash.
Proof.
  exists (str "	movsq"). split; [|vm_compute; reflexivity].
  apply has_tokens_toks. change (str "movsq") with (txt (KStr (str "movsq") [])). econstructor; [vm_compute; reflexivity|constructor].
Qed.
Print Assumptions C86_string_move_refuted.
