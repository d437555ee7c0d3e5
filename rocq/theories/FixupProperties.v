(** Theorems about kpatch_strip --rel-fixup: C92, C93. *)
From Coq Require Import String.
From Coq Require Import ZArith List Bool Lia ZifyBool ZifyNat.
From Verif Require Import Base BaseProofs JumpSpec RelocModel RelocSpec RelocProofs RelocProperties TextModel TextProofs StorageModel
  StripModel StripSpec StripProofs StripProperties FixupModel FixupSpec FixupProofs.
Import ListNotations.
Open Scope list_scope.
Open Scope Z_scope.

(** ** C92 *)
(** One relocation against a symbol that is not thread-local: it points where it pointed, at
    the same place, and only a PLT reference changes its type. *)
Theorem C92_target : forall A dyn orig patch syms r y addr bs r' oy bs',
  fixup_one A dyn orig patch syms r y addr bs = FOk (r', oy, bs') -> nth_error syms (Z.to_nat (r_sym r)) = Some y -> y_type y <> 6 ->
  r_offset r' = r_offset r /\ retyped (r_type r) (r_type r') /\
  (forall sh o, points (o_secs patch) syms r sh o -> points (o_secs patch) syms r' sh o) /\
  (y_name y = [] \/ hd 0 (y_name y) <> 46 -> r_sym r' = r_sym r /\ r_addend r' = r_addend r).
Proof.
  intros A dyn orig patch syms r y addr bs r' oy bs' H N T.
  destruct (fixup_one_plain _ _ _ _ _ _ _ _ _ _ _ _ H T) as (F1 & F2 & F3 & _). split; [exact F1|]. split; [exact F2|].
  split; [exact (fixup_points _ _ _ _ _ _ _ _ _ _ _ _ H T N)|]. intros D. destruct F3 as [F3|(_ & _ & n & E & _)]; [exact F3|].
  exfalso. rewrite E in D. destruct D as [D|D]; [discriminate|apply D; reflexivity].
Qed.
(** x86-64 and AArch64: all the relocations of a section; the symbols stay, and of the bytes
    only the operation code of loads from the global offset table changes. *)
Theorem C92_section : forall A dyn orig patch syms rs addr bs rs' ys bs', A = fx86 \/ A = fa64 ->
  fixup_relas A dyn orig patch syms rs addr bs = FOk (rs', ys, bs') ->
  ys = syms /\
  (length bs' = length bs /\ forall j, nth_error bs' j = nth_error bs j \/
    (nth_error bs j = Some 0x8b /\ nth_error bs' j = Some 0x8d /\
     exists r, In r rs /\ got_type (r_type r) /\ Z.of_nat j = (r_offset r - addr - 2) mod 2 ^ 64)) /\
  Forall2 (fun r r' => r_offset r' = r_offset r /\ exists y, nth_error syms (Z.to_nat (r_sym r)) = Some y /\
     (y_type y <> 6 -> retyped (r_type r) (r_type r') /\ forall sh o, points (o_secs patch) syms r sh o -> points (o_secs patch) syms r' sh o)) rs rs'.
Proof.
  intros A dyn orig patch syms rs addr bs rs' ys bs' HA H. refine (fixup_relas_spec _ _ _ _ _ _ _ _ _ _ _ _ _ H);
    destruct HA as [-> | ->]; try reflexivity; [exact tls_keeps_x86|exact tls_keeps_a64].
Qed.
(** x86-64: a load of a symbol's address from the table, where the symbol is one of the
    original's, gives the symbol's address after the loader has relocated it. *)
Theorem C92_address : forall dyn orig patch syms r y addr bs r' oy bs',
  fixup_one fx86 dyn orig patch syms r y addr bs = FOk (r', oy, bs') ->
  got_type (r_type r) -> y_shndx y <> 0 -> y_type y <> 3 -> y_type y <> 6 -> r_addend r = -4 ->
  (forall s n, nth_error (o_secs patch) (Z.to_nat (y_shndx y)) = Some s -> s_name s <> str ".kpatch" ++ n) ->
  (y_name y = [] \/ hd 0 (y_name y) <> 46) ->
  slice bs ((r_offset r - addr - 2) mod 2 ^ 64) 1 = Some [0x8b] ->
  slice bs' ((r_offset r - addr - 2) mod 2 ^ 64) 1 = Some [0x8d] /\
  forall c lsyms prev rl buf b s mem,
    r_type rl = r_type r' -> r_addend rl = r_addend r' -> x86_reloc c lsyms prev rl buf = Next b ->
    nth_error lsyms (Z.to_nat (r_sym rl)) = Some s -> ~ undefined s -> y_type s <> 6 -> fits_signed 32 (y_value s - 4 - place c rl) ->
    exists d, has b (locn c rl) 4 d /\ register 0x8d (u64 (place c rl + 4 + sext 32 d)) mem = Some (u64 (y_value s)).
Proof.
  intros dyn orig patch syms r y addr bs r' oy bs' H G U T3 T6 Ad K D M.
  pose proof (fixup_one_plain _ _ _ _ _ _ _ _ _ _ _ _ H T6) as (_ & F2 & F3 & _ & _).
  assert (E : r_type r' = r_type r /\ r_addend r' = -4).
  { split.
    - destruct F2 as [F2|[F2 _]]; [exact F2|]. exfalso. unfold got_type in G. cbn [In] in G. lia.
    - destruct F3 as [[_ F3]|(_ & _ & n & E & _)]; [congruence|]. exfalso. rewrite E in D. destruct D as [D|D]; [discriminate|apply D; reflexivity]. }
  split.
  - unfold fixup_one in H. unfold STT_SECTION, STT_TLS in H. rewrite (proj2 (Z.eqb_neq _ _) T3), (proj2 (Z.eqb_neq _ _) T6) in H.
    destruct (our_section _ _) eqn:O.
    { exfalso. unfold our_section in O. apply andb_true_iff in O as [_ O]. destruct (nth_error _ _) as [s|]; [|discriminate].
      apply starts_spec in O as [n O]. exact (K s n eq_refl O). }
    destruct (_ && _ && _ && _); [discriminate|].
    replace ((y_bind y =? STB_LOCAL) && match y_name y with c :: _ => c =? DOT | [] => false end) with false in H.
    2: { symmetry. apply andb_false_iff. right. destruct (y_name y) as [|c n]; [reflexivity|]. destruct D as [D|D]; [discriminate|]. cbn [hd] in D. unfold DOT. lia. }
    cbn iota beta in H. unfold SHN_UNDEF in H. rewrite (proj2 (Z.eqb_neq _ _) U) in H. rewrite (proj2 (is_gotpcrel_iff _) G) in H.
    unfold mov_lea, u64 in H. rewrite M in H. change (0x8b =? 0x8b) with true in H. cbn iota in H.
    destruct (splice bs _ [0x8d]) as [b1|] eqn:Sp; [|discriminate]. cbn [fx86 f_copy andb] in H. injection H as <- <- <-.
    exact (slice_splice_same _ _ _ _ Sp).
  - intros c lsyms prev rl buf b s mem Tl Al X N Us Ts Fs. destruct E as [E1 E2].
    destruct (C29_got_of_defined_symbol c lsyms prev rl buf b s X N) as (d & Hd & V); auto; try congruence.
    + rewrite Tl, E1. exact G.
    + exists d. split; [exact Hd|]. unfold register. change (0x8d =? 0x8b) with false. change (0x8d =? 0x8d) with true. rewrite V. reflexivity.
Qed.
(** A symbol of the patch's own sections: the load stays a load, so that the contents of the
    variable are taken for its address. *)
Definition pt := mksec ".kpatch.text" 1 6 0x2000 80 16 0 0 16 (CBytes [0x48; 0x8b; 0x05; 0; 0; 0; 0]).
Definition pv := mksec ".kpatch.data" 1 3 0x3000 96 8 0 0 8 (CBytes (repeat 0 8)).
Definition px := {| o_secs := [nullsec; pt; pv]; o_syms := [mksym "" 0 0 0; mksym "v" 0x3000 2 1]; o_type := 2; o_shoff := 0; o_phnum := 0 |}.
Definition grel := {| r_offset := 0x2003; r_type := 9; r_sym := 1; r_addend := -4 |}.
Definition lc := {| t_off := 0; t_size := 16; t_addr := 0x500000; t_info := false; t_load := 0 |}.
Definition lsym := {| y_name := str "v"; y_value := 0x500100; y_size := 8; y_shndx := 2; y_type := 1; y_bind := 1 |}.
Theorem C92_own_variable_refuted : exists patch syms r y addr bs r' oy bs' op c lsyms rl buf b s d mem,
  fixup_one fx86 [] ex_orig patch syms r y addr bs = FOk (r', oy, bs') /\ got_type (r_type r) /\
  slice bs' (r_offset r - addr - 2) 1 = Some [op] /\
  r_type rl = r_type r' /\ r_addend rl = r_addend r' /\ nth_error lsyms (Z.to_nat (r_sym rl)) = Some s /\ ~ undefined s /\
  x86_reloc c lsyms [] rl buf = Next b /\ has b (locn c rl) 4 d /\
  register op (u64 (place c rl + 4 + sext 32 d)) mem <> Some (y_value s).
Proof.
  exists px, (o_syms px), grel, (mksym "v" 0x3000 2 1), 0x2000, [0x48; 0x8b; 0x05; 0; 0; 0; 0]. do 3 eexists. exists 0x8b.
  exists lc, [mksym "" 0 0 0; lsym], {| r_offset := 3; r_type := 9; r_sym := 1; r_addend := -4 |}, (repeat 0 16). eexists. exists lsym, 0xf9, (fun _ => 7).
  split; [vm_compute; reflexivity|]. split; [left; reflexivity|]. split; [vm_compute; reflexivity|]. split; [reflexivity|]. split; [reflexivity|].
  split; [reflexivity|]. split; [unfold undefined; vm_compute; intuition congruence|].
  split; [vm_compute; reflexivity|]. split; [eexists; split; vm_compute; reflexivity|]. vm_compute. congruence.
Qed.
(** A field at the very start of a section is looked at outside of it. *)
Theorem C92_outside_refuted : exists patch syms r y addr bs,
  addr <= r_offset r < addr + zlen bs /\ fixup_one fx86 [] ex_orig patch syms r y addr bs = FCrash.
Proof.
  exists px, [mksym "" 0 0 0; mksym "g" 0x1000 1 2], {| r_offset := 0x2001; r_type := 9; r_sym := 1; r_addend := 0 |}.
  exists (mksym "g" 0x1000 3 2), 0x2000, (repeat 0 16). split; [vm_compute; split; congruence|]. vm_compute. reflexivity.
Qed.
(** RISC-V, LoongArch: a symbol is made undefined only if it has a version; and then it is,
    although the patch and the original define it. *)
Theorem C92_undefined_only_versioned : forall A dyn orig patch syms r y addr bs r' y' bs',
  fixup_one A dyn orig patch syms r y addr bs = FOk (r', Some y', bs') -> y_type y <> 6 ->
  In 64 (y_name y) /\ y_shndx y' = 0 /\ y_name y' = y_name y /\ y_value y' = y_value y.
Proof.
  intros A dyn orig patch syms r y addr bs r' y' bs' H T. destruct (fixup_one_plain _ _ _ _ _ _ _ _ _ _ _ _ H T) as (_ & _ & _ & [F|(F1 & _ & F2)] & _); [discriminate|].
  injection F1 as ->. auto.
Qed.
Definition ov := {| o_secs := [nullsec; text0 0x1000]; o_syms := [mksym "" 0 0 0; mksym "f@@V2" 0x1004 1 2]; o_type := 2; o_shoff := 200; o_phnum := 1 |}.
Theorem C92_versioned_refuted : exists orig patch syms rs y addr bs rs' syms' y' bs',
  fixup_relas friscv [] orig patch syms rs addr bs = FOk (rs', syms', bs') /\
  nth_error syms 1 = Some y /\ In (y_name y) (map y_name (o_syms orig)) /\ y_shndx y = 1 /\ sec_addr (o_secs patch) 1 0x1100 /\
  nth_error syms' 1 = Some y' /\ y_name y' = y_name y /\ y_shndx y' = 0.
Proof.
  exists ov, ex_patch, [mksym "" 0 0 0; mksym "f@@V2" 0x1108 1 2], [{| r_offset := 0x2000; r_type := 19; r_sym := 1; r_addend := 0 |}].
  exists (mksym "f@@V2" 0x1108 1 2), 0x2000, (repeat 0 16). do 4 eexists. split; [vm_compute; reflexivity|]. split; [reflexivity|].
  split; [right; left; reflexivity|]. split; [reflexivity|]. split; [eexists; split; reflexivity|].
  split; [reflexivity|]. split; reflexivity.
Qed.
Print Assumptions C92_target.
Print Assumptions C92_section.
Print Assumptions C92_address.
Print Assumptions C92_own_variable_refuted.
Print Assumptions C92_outside_refuted.
Print Assumptions C92_undefined_only_versioned.
Print Assumptions C92_versioned_refuted.
(** A string literal, a call through the PLT and a load of an address *)
Definition ro := mksec ".rodata" 1 2 0x4000 96 8 0 0 8 (CBytes (repeat 0 8)).
Definition pz := {| o_secs := [nullsec; pt; ro]; o_syms := []; o_type := 2; o_shoff := 0; o_phnum := 0 |}.
Definition loc_lc := {| y_name := str ".LC0"; y_value := 0x4010; y_size := 0; y_shndx := 2; y_type := 0; y_bind := 0 |}.
Definition zsyms := [mksym "" 0 0 0; loc_lc; mksym "printf" 0 0 2; mksym "v" 0x4020 2 1; {| y_name := []; y_value := 0x4000; y_size := 0; y_shndx := 2; y_type := 3; y_bind := 0 |}].
Example C92_case : fixup_relas fx86 [] ex_orig pz zsyms
    [ {| r_offset := 0x2003; r_type := 2; r_sym := 1; r_addend := 5 |}; {| r_offset := 0x2003; r_type := 4; r_sym := 2; r_addend := -4 |}; {| r_offset := 0x2003; r_type := 9; r_sym := 3; r_addend := -4 |} ]
    0x2000 [0x48; 0x8b; 0x05; 0; 0; 0; 0]
  = FOk ([ {| r_offset := 0x2003; r_type := 2; r_sym := 4; r_addend := 0x15 |}; {| r_offset := 0x2003; r_type := 2; r_sym := 2; r_addend := -4 |}; {| r_offset := 0x2003; r_type := 9; r_sym := 3; r_addend := -4 |} ],
         zsyms, [0x48; 0x8d; 0x05; 0; 0; 0; 0])
  /\ points (o_secs pz) zsyms {| r_offset := 0x2003; r_type := 2; r_sym := 1; r_addend := 5 |} 2 0x15
  /\ points (o_secs pz) zsyms {| r_offset := 0x2003; r_type := 2; r_sym := 4; r_addend := 0x15 |} 2 0x15.
Proof.
  split; [vm_compute; reflexivity|]. split.
  - exact (pt_symbol (o_secs pz) zsyms {| r_offset := 0x2003; r_type := 2; r_sym := 1; r_addend := 5 |} loc_lc ro eq_refl ltac:(vm_compute; congruence) ltac:(vm_compute; congruence) eq_refl).
  - exact (pt_section (o_secs pz) zsyms {| r_offset := 0x2003; r_type := 2; r_sym := 4; r_addend := 0x15 |} _ eq_refl eq_refl).
Qed.

(** ** C93 *)
(** x86-64, initial-exec: when the entries without symbol are all for offsets from the thread
    pointer, a relocation against a variable of the program gets the address of a slot of the
    original that holds the variable's offset, and the loaded instruction reads that slot. *)
Theorem C93_slot_partial : forall dyn orig patch syms r y addr bs r' oy bs',
  fixup_one fx86 dyn orig patch syms r y addr bs = FOk (r', oy, bs') -> y_type y = 6 -> r_type r = 22 ->
  y_bind y = 0 \/ y_shndx y <> 0 ->
  (forall e, dynrela orig e -> r_sym e = 0 -> r_type e <> 16 /\ r_type e <> 17) ->
  exists slot, tpoff_slot [18] orig (y_value y) slot /\ r_addend r' = slot /\ r_offset r' = r_offset r /\
  forall c lsyms prev rl buf b s, r_type rl = 22 -> r_addend rl = slot -> x86_reloc c lsyms prev rl buf = Next b ->
    nth_error lsyms (Z.to_nat (r_sym rl)) = Some s -> ~ undefined s -> y_type s = 6 ->
    exists d, has b (locn c rl) 4 d /\ (place c rl + 4 + d) mod 2 ^ 32 = (slot + t_load c) mod 2 ^ 32.
Proof.
  intros dyn orig patch syms r y addr bs r' oy bs' H T Ty O Only. unfold fixup_one in H. rewrite T in H. change (6 =? STT_SECTION) with false in H.
  change (6 =? STT_TLS) with true in H. cbn iota in H. cbn [fx86 f_tls] in H. unfold x86_tls in H. rewrite Ty in H.
  change (22 =? R_X86_64_TPOFF32) with false in H. change (22 =? R_X86_64_GOTTPOFF) with true in H. cbn iota in H.
  destruct (tls_got _ _ _ _ _ _ _) as [q| | |] eqn:Q; try discriminate. injection H as <- <- <-.
  destruct (tls_got_own _ _ _ _ _ _ _ Q ltac:(discriminate) ltac:(discriminate) O) as (e & E1 & E2 & E3 & E4 & ->).
  exists (r_offset e). destruct (Only e E1 E3) as [N1 N2]. split.
  - exists e. split; [exact E1|]. split; [|auto]. unfold tls_rela_x86, R_X86_64_TPOFF64, R_X86_64_DTPOFF64, R_X86_64_DTPMOD64 in E2. left. lia.
  - split; [reflexivity|]. split; [reflexivity|]. intros c lsyms prev rl buf b s Tl Al X N U Ts.
    destruct (C29_x86_entry c lsyms prev rl buf b s 4 (t_load c + r_addend rl - (place c rl + 4)) X N) as [_ Hh].
    { apply xr_tls; auto. rewrite Tl. right. left. reflexivity. }
    specialize (Hh ltac:(lia)). eexists. split; [exact Hh|]. change (2 ^ (8 * 4)) with (2 ^ 32). rewrite Zplus_mod_idemp_r, Al. f_equal. lia.
Qed.
(** It is found whenever the original has it. *)
Theorem C93_found : forall dyn orig patch syms r y addr bs slot, y_type y = 6 -> r_type r = 22 -> y_bind y = 0 \/ y_shndx y <> 0 ->
  tpoff_slot [18] orig (y_value y) slot -> exists r', fixup_one fx86 dyn orig patch syms r y addr bs = FOk (r', None, bs).
Proof.
  intros dyn orig patch syms r y addr bs slot T Ty O (e & E1 & E2 & E3 & E4 & E5). unfold fixup_one. rewrite T. change (6 =? STT_SECTION) with false.
  change (6 =? STT_TLS) with true. cbn iota. cbn [fx86 f_tls]. unfold x86_tls. rewrite Ty.
  change (22 =? R_X86_64_TPOFF32) with false. change (22 =? R_X86_64_GOTTPOFF) with true. cbn iota.
  assert (K : tls_rela_x86 e = true) by (destruct E2 as [E2|[]]; unfold tls_rela_x86; rewrite <- E2; reflexivity).
  destruct (tls_got_found tls_rela_x86 FDie dyn orig r y e O E1 K E3 E4) as [r' R]. rewrite R. exists r'. reflexivity.
Qed.
(** Local-exec: only if the original's first symbol of the name is the variable at the same
    offset; nothing is then left to do. *)
Theorem C93_local_exec : forall dyn orig patch syms r y addr bs r' oy bs',
  fixup_one fx86 dyn orig patch syms r y addr bs = FOk (r', oy, bs') -> y_type y = 6 -> r_type r = 23 ->
  r_type r' = 0 /\ bs' = bs /\ exists pre yo suf, o_syms orig = pre ++ yo :: suf /\ Forall (fun z => y_name z <> y_name y) pre /\
    y_name yo = y_name y /\ y_type yo = 6 /\ y_value yo = y_value y.
Proof.
  intros dyn orig patch syms r y addr bs r' oy bs' H T Ty. unfold fixup_one in H. rewrite T in H. change (6 =? STT_SECTION) with false in H.
  change (6 =? STT_TLS) with true in H. cbn iota in H. cbn [fx86 f_tls] in H. unfold x86_tls in H. rewrite Ty in H.
  change (23 =? R_X86_64_TPOFF32) with true in H. cbn iota in H. destruct (orig_tls_loc _ _) as [o| | |] eqn:L; try discriminate.
  destruct (o =? y_value y) eqn:V; [|discriminate]. injection H as <- <- <-. split; [reflexivity|]. split; [reflexivity|].
  destruct (orig_tls_loc_ok _ _ _ L) as (pre & yo & suf & E1 & E2 & E3 & E4 & _ & E5). exists pre, yo, suf. repeat split; auto. lia.
Qed.
(** With an entry for a module number before it, the relocation gets that entry's slot: it
    holds no offset at all. *)
Definition odyn rs := {| o_secs := [nullsec; mksec ".rela.dyn" 4 2 0 0 0 0 0 8 (CRelas rs)]; o_syms := []; o_type := 2; o_shoff := 0; o_phnum := 0 |}.
Definition dr o t s a := {| r_offset := o; r_type := t; r_sym := s; r_addend := a |}.
Definition tsym n v sh b := {| y_name := str n; y_value := v; y_size := 4; y_shndx := sh; y_type := 6; y_bind := b |}.
Theorem C93_module_refuted : exists orig patch syms r y addr bs r' oy bs',
  fixup_one fx86 [] orig patch syms r y addr bs = FOk (r', oy, bs') /\ y_type y = 6 /\ r_type r = 22 /\ y_shndx y <> 0 /\
  tpoff_slot [18] orig (y_value y) 0x5010 /\ tpoff_slot [16] orig (y_value y) (r_addend r') /\ r_addend r' <> 0x5010.
Proof.
  exists (odyn [dr 0x5000 16 0 0; dr 0x5010 18 0 0]), px, [], (dr 0x2003 22 1 (-4)), (tsym "t" 0 5 1), 0x2000, (repeat 0 16).
  do 3 eexists. split; [vm_compute; reflexivity|]. split; [reflexivity|]. split; [reflexivity|]. split; [vm_compute; discriminate|].
  assert (D : forall e, In e [dr 0x5000 16 0 0; dr 0x5010 18 0 0] -> dynrela (odyn [dr 0x5000 16 0 0; dr 0x5010 18 0 0]) e).
  { intros e I. exists [], (mksec ".rela.dyn" 4 2 0 0 0 0 0 8 (CRelas [dr 0x5000 16 0 0; dr 0x5010 18 0 0])), [], [dr 0x5000 16 0 0; dr 0x5010 18 0 0]. auto. }
  split; [exists (dr 0x5010 18 0 0); split; [apply D; right; left; reflexivity|]; split; [left; reflexivity|]; auto|].
  split; [exists (dr 0x5000 16 0 0); split; [apply D; left; reflexivity|]; split; [left; reflexivity|]; auto|]. vm_compute. discriminate.
Qed.
(** A variable of another library: the slot is found by its name, but the loader takes the
    symbol for one with a slot in the jump table, and the instruction reads 12 bytes behind the
    slot's address in the file. *)
Theorem C93_others : forall c lsyms prev rl buf b s slot, r_type rl = 22 -> r_addend rl = slot -> t_info c = false ->
  x86_reloc c lsyms prev rl buf = Next b -> nth_error lsyms (Z.to_nat (r_sym rl)) = Some s -> undefined s -> y_type s = 6 -> y_value s = 0 ->
  exists d, has b (locn c rl) 4 d /\ (place c rl + 4 + d) mod 2 ^ 32 = (slot + 12) mod 2 ^ 32.
Proof.
  intros c lsyms prev rl buf b s slot Tl Al I X N U Ts V.
  destruct (x86_reloc_inv _ _ _ _ _ _ X) as (s' & Es' & _ & _ & _ & Hh & _). assert (s' = s) by congruence. subst s'.
  rewrite Tl in Hh. change (x86_width 22) with 4 in Hh. specialize (Hh ltac:(lia)). eexists. split; [exact Hh|].
  change (2 ^ (8 * 4)) with (2 ^ 32). rewrite Zplus_mod_idemp_r. f_equal.
  unfold x86_value. apply undef_iff in U. rewrite U, I, Tl, Al, V. cbn [andb]. change ((22 =? 1) || (22 =? 10) || (22 =? 11)) with false. change (22 =? 2) with false. cbn iota. unfold place. lia.
Qed.
Theorem C93_others_refuted : exists dyn orig patch syms r y addr bs r' oy bs' e c lsyms rl buf b s d,
  fixup_one fx86 dyn orig patch syms r y addr bs = FOk (r', oy, bs') /\ y_type y = 6 /\ y_shndx y = 0 /\ r_type r = 22 /\
  dynrela orig e /\ nth_error dyn (Z.to_nat (r_sym e)) = Some (y_name y) /\ r_type e = 18 /\ r_addend r' = r_offset e /\
  r_type rl = r_type r' /\ r_addend rl = r_addend r' /\ nth_error lsyms (Z.to_nat (r_sym rl)) = Some s /\ s = y /\
  x86_reloc c lsyms [] rl buf = Next b /\ has b (locn c rl) 4 d /\ (place c rl + 4 + d) mod 2 ^ 32 <> (r_offset e + t_load c) mod 2 ^ 32.
Proof.
  exists [str ""; str "errno"], (odyn [dr 0x5010 18 1 0]), px, [], (dr 0x2003 22 1 (-4)), (tsym "errno" 0 0 1), 0x2000, (repeat 0 16).
  do 3 eexists. exists (dr 0x5010 18 1 0), lc, [mksym "" 0 0 0; tsym "errno" 0 0 1], (dr 3 22 1 0x5010), (repeat 0 16). eexists. exists (tsym "errno" 0 0 1). eexists.
  split; [vm_compute; reflexivity|]. do 3 (split; [reflexivity|]).
  split; [exists [], (mksec ".rela.dyn" 4 2 0 0 0 0 0 8 (CRelas [dr 0x5010 18 1 0])), [], [dr 0x5010 18 1 0]; repeat split; auto; left; reflexivity|].
  do 7 (split; [reflexivity|]). split; [vm_compute; reflexivity|]. split; [eexists; split; vm_compute; reflexivity|]. vm_compute. discriminate.
Qed.
(** An ordinary variable of the same name in the original: NULL is written through. *)
Theorem C93_null_refuted : exists orig patch syms r y addr bs, y_type y = 6 /\ r_type r = 23 /\ fixup_one fx86 [] orig patch syms r y addr bs = FCrash.
Proof. exists ex_orig, px, [], (dr 0x2003 23 1 0), (tsym "f" 0 5 1), 0x2000, (repeat 0 16). vm_compute. repeat split; reflexivity. Qed.
(** LoongArch: the search takes entries of types that .rela.dyn never has, so that a variable
    of the program gets the address 0. *)
Theorem C93_loongarch : forall dyn orig patch syms r y addr bs r' oy bs',
  fixup_one flarch dyn orig patch syms r y addr bs = FOk (r', oy, bs') -> y_type y = 6 -> In (r_type r) [87; 88; 91; 92] ->
  y_bind y = 0 \/ y_shndx y <> 0 -> (forall e, dynrela orig e -> r_type e <> 91 /\ r_type e <> 92) -> r_addend r' = 0.
Proof.
  intros dyn orig patch syms r y addr bs r' oy bs' H T Ty O Only. unfold fixup_one in H. rewrite T in H. change (6 =? STT_SECTION) with false in H.
  change (6 =? STT_TLS) with true in H. cbn iota in H. cbn [flarch f_tls] in H. unfold larch_tls in H.
  assert (E : tls_got tls_rela_larch ie_larch (FOk 0) dyn orig r y = FOk r').
  { destruct Ty as [E|[E|[E|[E|[]]]]]; rewrite <- E in H; cbn [Z.eqb orb R_LARCH_TLS_LE_LO12 R_LARCH_TLS_LE_LO12_R Pos.eqb] in H; vm_compute (_ || _) in H;
      destruct (tls_got _ _ _ _ _ _ _) as [q| | |]; try discriminate; injection H as <- <- <-; reflexivity. }
  unfold tls_got in E. replace ((y_bind y =? STB_LOCAL) || negb (y_shndx y =? SHN_UNDEF)) with true in E
    by (unfold SHN_UNDEF; destruct O as [O|O]; [rewrite O; reflexivity|rewrite (proj2 (Z.eqb_neq _ _) O), orb_true_r; reflexivity]).
  destruct (tls_reladyn _ _) as [rs|] eqn:R; [|discriminate]. rewrite got_none in E; [injection E as <-; reflexivity|].
  destruct (tls_reladyn_spec _ _ _ R) as (s & all & pre & suf & F & D & -> & _ & _). apply Forall_forall. intros e I.
  assert (J : dynrela orig e) by (apply (dynrela_in _ _ _ _ F D); apply in_or_app; right; apply in_or_app; left; exact I).
  destruct (Only e J). unfold ie_larch, R_LARCH_TLS_IE_HI20, R_LARCH_TLS_IE_LO12. lia.
Qed.
Theorem C93_loongarch_refuted : exists orig patch syms r y addr bs r' oy bs' slot,
  fixup_one flarch [] orig patch syms r y addr bs = FOk (r', oy, bs') /\ y_type y = 6 /\ y_shndx y <> 0 /\
  tpoff_slot [11] orig (y_value y) slot /\ r_addend r' <> slot.
Proof.
  exists (odyn [dr 0x5010 11 0 8]), px, [], (dr 0x2000 87 1 0), (tsym "t" 8 5 1), 0x2000, (repeat 0 16). do 3 eexists. exists 0x5010.
  split; [vm_compute; reflexivity|]. split; [reflexivity|]. split; [vm_compute; discriminate|]. split; [|vm_compute; discriminate].
  exists (dr 0x5010 11 0 8). split; [|repeat split; auto; left; reflexivity].
  exists [], (mksec ".rela.dyn" 4 2 0 0 0 0 0 8 (CRelas [dr 0x5010 11 0 8])), [], [dr 0x5010 11 0 8]. repeat split; auto. left. reflexivity.
Qed.
(** AArch64: the page that the linked instruction names, if the instruction is in the first page
    of its section. *)
Theorem C93_aarch64_partial : forall dyn orig patch syms r y addr bs r' oy bs' w,
  fixup_one fa64 dyn orig patch syms r y addr bs = FOk (r', oy, bs') -> y_type y = 6 -> y_bind y <> 0 -> r_type r = 541 ->
  slice bs ((r_offset r - addr) mod 2 ^ 64) 4 = Some w -> r_offset r / 4096 = addr / 4096 -> 0 <= adrp_page (le_val w) (r_offset r) < 2 ^ 32 ->
  r_addend r' = adrp_page (le_val w) (r_offset r).
Proof.
  intros dyn orig patch syms r y addr bs r' oy bs' w H T B Ty Sl P R. unfold fixup_one in H. rewrite T in H. change (6 =? STT_SECTION) with false in H.
  change (6 =? STT_TLS) with true in H. cbn iota in H. cbn [fa64 f_tls] in H. unfold a64_tls in H. unfold STB_LOCAL in H. rewrite (proj2 (Z.eqb_neq _ _) B), Ty in H.
  change (541 =? R_AARCH64_TLSIE_ADR_GOTTPREL_PAGE21) with true in H. cbn iota zeta in H. unfold u64 in H. rewrite Sl in H. injection H as <- <- <-.
  cbn [with_addend r_addend]. apply adrp_got_page; assumption.
Qed.
Theorem C93_aarch64_refuted : exists orig patch syms r y addr bs r' oy bs' w,
  fixup_one fa64 [] orig patch syms r y addr bs = FOk (r', oy, bs') /\ y_type y = 6 /\ r_type r = 541 /\
  slice bs (r_offset r - addr) 4 = Some w /\ r_addend r' <> adrp_page (le_val w) (r_offset r).
Proof.
  exists ex_orig, px, [], (dr 0x3000 541 1 0), (tsym "t" 0 0 1), 0x2000, (repeat 0 4096 ++ le_bytes 4 0x90000000). do 3 eexists. exists (le_bytes 4 0x90000000).
  split; [vm_compute; reflexivity|]. split; [reflexivity|]. split; [reflexivity|]. split; [vm_compute; reflexivity|]. vm_compute. discriminate.
Qed.
(** LoongArch, local-exec: as on x86. *)
Theorem C93_loongarch_local_exec : forall dyn orig patch syms r y addr bs r' oy bs',
  fixup_one flarch dyn orig patch syms r y addr bs = FOk (r', oy, bs') -> y_type y = 6 -> In (r_type r) [84; 123] ->
  r_type r' = 0 /\ bs' = bs /\ exists pre yo suf, o_syms orig = pre ++ yo :: suf /\ Forall (fun z => y_name z <> y_name y) pre /\
    y_name yo = y_name y /\ y_type yo = 6 /\ y_value yo = y_value y.
Proof.
  intros dyn orig patch syms r y addr bs r' oy bs' H T Ty. unfold fixup_one in H. rewrite T in H. change (6 =? STT_SECTION) with false in H.
  change (6 =? STT_TLS) with true in H. cbn iota in H. cbn [flarch f_tls] in H. unfold larch_tls in H.
  replace ((r_type r =? R_LARCH_TLS_LE_LO12) || (r_type r =? R_LARCH_TLS_LE_LO12_R)) with true in H
    by (destruct Ty as [<-|[<-|[]]]; reflexivity).
  destruct (orig_tls_loc _ _) as [o| | |] eqn:L; try discriminate.
  destruct (o =? y_value y) eqn:V; [|discriminate]. injection H as <- <- <-. split; [reflexivity|]. split; [reflexivity|].
  destruct (orig_tls_loc_ok _ _ _ L) as (pre & yo & suf & E1 & E2 & E3 & E4 & _ & E5). exists pre, yo, suf. repeat split; auto. lia.
Qed.
(** RISC-V, initial-exec: the address of a slot of the original that holds the variable's offset
    from the thread pointer, exactly when there is one. *)
Theorem C93_riscv_slot : forall dyn orig patch syms r y addr bs r' oy bs',
  fixup_one friscv dyn orig patch syms r y addr bs = FOk (r', oy, bs') -> y_type y = 6 -> r_type r = 21 ->
  y_bind y = 0 \/ y_shndx y <> 0 ->
  bs' = bs /\ r_offset r' = r_offset r /\ r_type r' = 21 /\ r_sym r' = r_sym r /\ tpoff_slot [10; 11] orig (y_value y) (r_addend r').
Proof.
  intros dyn orig patch syms r y addr bs r' oy bs' H T Ty O. unfold fixup_one in H. rewrite T in H. change (6 =? STT_SECTION) with false in H.
  change (6 =? STT_TLS) with true in H. cbn iota in H. cbn [friscv f_tls] in H. unfold riscv_tls in H. rewrite Ty in H.
  vm_compute (_ || _) in H. change (21 =? R_RISCV_TLS_GOT_HI20) with true in H. cbn iota in H.
  destruct (tls_got _ _ _ _ _ _ _) as [q| | |] eqn:Q; try discriminate. injection H as <- <- <-.
  destruct (tls_got_own _ _ _ _ _ _ _ Q ltac:(discriminate) ltac:(discriminate) O) as (e & E1 & E2 & E3 & E4 & ->).
  cbn [with_addend r_offset r_type r_sym r_addend]. repeat (split; [first [reflexivity|exact Ty]|]).
  exists e. split; [exact E1|]. split; [|auto]. unfold tls_rela_riscv, R_RISCV_TLS_TPREL32, R_RISCV_TLS_TPREL64 in E2. cbn. lia.
Qed.
Theorem C93_riscv_found : forall dyn orig patch syms r y addr bs slot, y_type y = 6 -> r_type r = 21 -> y_bind y = 0 \/ y_shndx y <> 0 ->
  tpoff_slot [10; 11] orig (y_value y) slot -> exists r', fixup_one friscv dyn orig patch syms r y addr bs = FOk (r', None, bs).
Proof.
  intros dyn orig patch syms r y addr bs slot T Ty O (e & E1 & E2 & E3 & E4 & E5). unfold fixup_one. rewrite T. change (6 =? STT_SECTION) with false.
  change (6 =? STT_TLS) with true. cbn iota. cbn [friscv f_tls]. unfold riscv_tls. rewrite Ty.
  vm_compute (_ || _). change (21 =? R_RISCV_TLS_GOT_HI20) with true. cbn iota.
  assert (K : tls_rela_riscv e = true) by (destruct E2 as [E2|[E2|[]]]; unfold tls_rela_riscv; rewrite <- E2; reflexivity).
  destruct (tls_got_found tls_rela_riscv FDie dyn orig r y e O E1 K E3 E4) as [r' R]. rewrite R. exists r'. reflexivity.
Qed.
Example C93_riscv_slot_case : exists r', fixup_one friscv [] (odyn [dr 0x5000 3 0 8; dr 0x5008 11 0 16; dr 0x5010 11 0 8]) px []
    (dr 0x2000 21 1 0) (tsym "t" 8 5 1) 0x2000 (repeat 0 16) = FOk (r', None, repeat 0 16) /\ r_addend r' = 0x5010.
Proof. eexists. split; vm_compute; reflexivity. Qed.
Lemma upto_at n : ~ In 64 (upto AT n) /\ (n = upto AT n \/ exists v, n = upto AT n ++ 64 :: v).
Proof.
  unfold AT. induction n as [|x n (A & B)]; cbn [upto]; [split; [intros []|left; reflexivity]|].
  destruct (x =? 64) eqn:E; [apply Z.eqb_eq in E; subst x; split; [intros []|right; exists n; reflexivity]|].
  split; [intros [K|K]; [subst x; discriminate E|exact (A K)]|].
  destruct B as [B|[v B]]; [left; f_equal; exact B|right; exists v; cbn; f_equal; exact B].
Qed.
(** x86-64 and RISC-V, a global variable of another library: the slot of the entry that names
    it, the version cut off. *)
Theorem C93_by_name : forall A k ts dyn orig patch syms r y addr bs r' oy bs',
  In (A, k, ts) [(fx86, 22, [16; 17; 18]); (friscv, 21, [10; 11])] ->
  fixup_one A dyn orig patch syms r y addr bs = FOk (r', oy, bs') -> y_type y = 6 -> r_type r = k -> y_bind y <> 0 -> y_shndx y = 0 ->
  y_bind y = 1 /\ bs' = bs /\ exists e, dynrela orig e /\ In (r_type e) ts /\ r_sym e <> 0 /\ r_addend e = 0 /\
    r_addend r' = r_offset e /\
    exists n, nth_error dyn (Z.to_nat (r_sym e)) = Some n /\ ~ In 64 n /\ (y_name y = n \/ exists v, y_name y = n ++ 64 :: v).
Proof.
  intros A k ts dyn orig patch syms r y addr bs r' oy bs' HA H T Ty B U. unfold fixup_one in H. rewrite T in H. change (6 =? STT_SECTION) with false in H.
  change (6 =? STT_TLS) with true in H. cbn iota in H.
  assert (G : exists tls, (forall e, tls e = true -> In (r_type e) ts) /\ exists q, tls_got tls tls FDie dyn orig r y = FOk q /\ r' = q /\ bs' = bs).
  { destruct HA as [E|[E|[]]]; injection E as <- <- <-.
    - exists tls_rela_x86. split; [intros e; unfold tls_rela_x86, R_X86_64_TPOFF64, R_X86_64_DTPOFF64, R_X86_64_DTPMOD64; cbn; lia|].
      cbn [fx86 f_tls] in H. unfold x86_tls in H. rewrite Ty in H.
      change (22 =? R_X86_64_TPOFF32) with false in H. change (22 =? R_X86_64_GOTTPOFF) with true in H. cbn iota in H.
      destruct (tls_got _ _ _ _ _ _ _) as [q| | |] eqn:Q; try discriminate. injection H as <- <- <-. exists q. auto.
    - exists tls_rela_riscv. split; [intros e; unfold tls_rela_riscv, R_RISCV_TLS_TPREL32, R_RISCV_TLS_TPREL64; cbn; lia|].
      cbn [friscv f_tls] in H. unfold riscv_tls in H. rewrite Ty in H.
      vm_compute (_ || _) in H. change (21 =? R_RISCV_TLS_GOT_HI20) with true in H. cbn iota in H.
      destruct (tls_got _ _ _ _ _ _ _) as [q| | |] eqn:Q; try discriminate. injection H as <- <- <-. exists q. auto. }
  destruct G as (tls & K & q & Q & -> & ->). unfold tls_got, STB_LOCAL in Q. rewrite (proj2 (Z.eqb_neq _ _) B), U in Q. cbn [orb negb] in Q. change (0 =? SHN_UNDEF) with true in Q. cbn [negb] in Q.
  destruct (y_bind y =? STB_GLOBAL) eqn:EB; [|discriminate]. destruct (tls_reladyn tls orig) as [rs|] eqn:R; [|discriminate].
  destruct (got_by_name tls dyn rs _) as [g| | |] eqn:G; try discriminate. injection Q as <-.
  destruct (got_by_name_in _ _ _ _ _ G) as (e & I & E1 & E2 & E3 & E4 & E5).
  destruct (tls_reladyn_spec _ _ _ R) as (s & all & pre & suf & F & D & -> & _ & _).
  split; [unfold STB_GLOBAL in EB; lia|]. split; [reflexivity|]. exists e.
  split; [apply (dynrela_in _ _ _ _ F D); apply in_or_app; right; apply in_or_app; left; exact I|]. split; [auto|]. split; [exact E2|]. split; [exact E3|].
  split; [symmetry; exact E5|]. exists (upto AT (y_name y)). split; [exact E4|]. apply upto_at.
Qed.
Example C93_by_name_case : exists r', fixup_one friscv [str ""; str "errno"] (odyn [dr 0x5010 11 1 0]) px []
    (dr 0x2000 21 1 0) (tsym "errno@GLIBC" 0 0 1) 0x2000 (repeat 0 16) = FOk (r', None, repeat 0 16) /\ r_addend r' = 0x5010.
Proof. eexists. split; vm_compute; reflexivity. Qed.
(** On every architecture other kinds of reference to a thread-local variable are refused. *)
Theorem C93_other_kinds : forall dyn orig patch syms r y addr bs A kinds,
  In (A, kinds) [(fx86, [22; 23]); (friscv, [21; 29; 30; 31; 32; 49; 50]); (flarch, [84; 87; 88; 91; 92; 123])] \/
    (A = fa64 /\ kinds = [541; 542] /\ y_bind y <> 0) ->
  y_type y = 6 -> ~ In (r_type r) kinds -> fixup_one A dyn orig patch syms r y addr bs = FErr.
Proof.
  intros dyn orig patch syms r y addr bs A kinds HA T N. unfold fixup_one. rewrite T. change (6 =? STT_SECTION) with false.
  change (6 =? STT_TLS) with true. cbn iota.
  assert (F : forall k, In k kinds -> (r_type r =? k) = false) by (intros k I; apply Z.eqb_neq; intros E; apply N; rewrite E; exact I).
  destruct HA as [[E|[E|[E|[]]]]|(-> & -> & B)].
  - injection E as <- <-. cbn [fx86 f_tls]. unfold x86_tls. rewrite !F by (cbn; tauto). reflexivity.
  - injection E as <- <-. cbn [friscv f_tls]. unfold riscv_tls. cbv zeta. rewrite !F by (cbn; tauto). reflexivity.
  - injection E as <- <-. cbn [flarch f_tls]. unfold larch_tls. cbv zeta. rewrite !F by (cbn; tauto). reflexivity.
  - cbn [fa64 f_tls]. unfold a64_tls, STB_LOCAL. rewrite (proj2 (Z.eqb_neq _ _) B), !F by (cbn; tauto). reflexivity.
Qed.
(** RISC-V: a local-exec reference is left as it is, although the original has no such variable
    or has it elsewhere. *)
Theorem C93_riscv_local_exec_refuted : exists orig patch syms r y addr bs r' oy bs',
  fixup_one friscv [] orig patch syms r y addr bs = FOk (r', oy, bs') /\ y_type y = 6 /\ r_type r = 29 /\ y_shndx y <> 0 /\
  exists yo, In yo (o_syms orig) /\ y_name yo = y_name y /\ y_type yo = 6 /\ y_value yo <> y_value y.
Proof.
  exists {| o_secs := []; o_syms := [tsym "t" 8 5 1]; o_type := 2; o_shoff := 0; o_phnum := 0 |}, px, [], (dr 0x2000 29 1 0), (tsym "t" 0 5 1), 0x2000, (repeat 0 16).
  do 3 eexists. split; [vm_compute; reflexivity|]. split; [reflexivity|]. split; [reflexivity|]. split; [vm_compute; discriminate|].
  exists (tsym "t" 8 5 1). split; [left; reflexivity|]. split; [reflexivity|]. split; [reflexivity|]. vm_compute. discriminate.
Qed.
(** ... and every local-exec reference on RISC-V is taken as it is. *)
Theorem C93_riscv_local_exec : forall dyn orig patch syms r y addr bs, y_type y = 6 -> In (r_type r) [29; 30; 31; 32; 49; 50] ->
  fixup_one friscv dyn orig patch syms r y addr bs = FOk (r, None, bs).
Proof.
  intros dyn orig patch syms r y addr bs T Ty. unfold fixup_one. rewrite T. change (6 =? STT_SECTION) with false.
  change (6 =? STT_TLS) with true. cbn iota. cbn [friscv f_tls]. unfold riscv_tls. cbv zeta.
  destruct Ty as [Ty|[Ty|[Ty|[Ty|[Ty|[Ty|[]]]]]]]; rewrite <- Ty; reflexivity.
Qed.
Print Assumptions C93_riscv_local_exec.
Print Assumptions C93_loongarch_local_exec.
Print Assumptions C93_other_kinds.
Print Assumptions C93_riscv_local_exec_refuted.
Example C93_loongarch_local_exec_case : exists r',
  fixup_one flarch [] {| o_secs := []; o_syms := [tsym "u" 4 5 1; tsym "t" 8 5 1]; o_type := 2; o_shoff := 0; o_phnum := 0 |} px [] (dr 0x2000 84 1 0) (tsym "t" 8 5 1) 0x2000 (repeat 0 16)
  = FOk (r', None, repeat 0 16).
Proof. eexists. vm_compute. reflexivity. Qed.
Print Assumptions C93_slot_partial.
Print Assumptions C93_found.
Print Assumptions C93_local_exec.
Print Assumptions C93_module_refuted.
Print Assumptions C93_others.
Print Assumptions C93_others_refuted.
Print Assumptions C93_null_refuted.
Print Assumptions C93_loongarch.
Print Assumptions C93_loongarch_refuted.
Print Assumptions C93_aarch64_partial.
Print Assumptions C93_aarch64_refuted.
Print Assumptions C93_riscv_slot.
Print Assumptions C93_riscv_found.
Print Assumptions C93_by_name.
Example C93_case : exists r', fixup_one fx86 [] (odyn [dr 0x5000 8 0 3; dr 0x5008 18 0 4; dr 0x5010 18 0 0]) px [] (dr 0x2003 22 1 (-4)) (tsym "t" 0 5 1) 0x2000 (repeat 0 16)
   = FOk (r', None, repeat 0 16) /\ r_addend r' = 0x5010
  /\ exists r2, fixup_one fa64 [] ex_orig px [] (dr 0x2000 541 1 0) (tsym "t" 0 0 1) 0x2000 (le_bytes 4 0xb0000001) = FOk (r2, None, le_bytes 4 0xb0000001) /\ r_addend r2 = 0x3000.
Proof. eexists. split; [vm_compute; reflexivity|]. split; [reflexivity|]. eexists. split; vm_compute; reflexivity. Qed.

(** Which symbols are refused: a symbol that is not local, not in a section of the patch itself
    and neither data, code nor without type; the others of these, undefined, never are. *)
Theorem C92_kinds : forall A dyn orig patch syms r y addr bs, y_type y <> 3 -> y_type y <> 6 -> y_bind y <> 0 ->
  our_section (o_secs patch) (y_shndx y) = false ->
  (~ In (y_type y) [0; 1; 2] -> fixup_one A dyn orig patch syms r y addr bs = FErr) /\
  (In (y_type y) [0; 1; 2] -> y_shndx y = 0 -> exists r', fixup_one A dyn orig patch syms r y addr bs = FOk (r', None, bs) /\
     r_sym r' = r_sym r /\ r_offset r' = r_offset r /\ r_addend r' = r_addend r /\ retyped (r_type r) (r_type r')).
Proof.
  intros A dyn orig patch syms r y addr bs T3 T6 B O. unfold fixup_one.
  rewrite (proj2 (Z.eqb_neq (y_type y) STT_SECTION) T3), (proj2 (Z.eqb_neq (y_type y) STT_TLS) T6), O, (proj2 (Z.eqb_neq (y_bind y) STB_LOCAL) B).
  unfold STT_NOTYPE, STT_FUNC, STT_OBJECT. cbn [In negb andb]. split.
  - intros N. replace (y_type y =? 0) with false by lia. replace (y_type y =? 2) with false by lia. replace (y_type y =? 1) with false by lia. reflexivity.
  - intros I U. assert (E : (negb (y_type y =? 0) && negb (y_type y =? 2) && negb (y_type y =? 1) && true) = false) by lia. rewrite E. rewrite U.
    change (0 =? SHN_UNDEF) with true. cbn iota. eexists. split; [reflexivity|]. unfold plt_pc. destruct (Z.eqb_spec (r_type r) R_X86_64_PLT32) as [Q|Q]; cbn; unfold retyped; rewrite ?Q; auto 10.
Qed.
Print Assumptions C92_kinds.
Example C92_kinds_case : exists syms r,
  (let y := {| y_name := [97]; y_value := 0; y_size := 0; y_shndx := 0; y_type := 10; y_bind := 1 |} in
   our_section (o_secs ex_orig) (y_shndx y) = false /\ fixup_one fx86 [] ex_orig ex_orig syms r y 0 [] = FErr) /\
  (let y := {| y_name := [97]; y_value := 0; y_size := 0; y_shndx := 0; y_type := 2; y_bind := 1 |} in
   our_section (o_secs ex_orig) (y_shndx y) = false /\ exists r', fixup_one fx86 [] ex_orig ex_orig syms r y 0 [] = FOk (r', None, []) /\ r_type r' = 2).
Proof.
  exists [], {| r_offset := 8; r_type := 4; r_sym := 1; r_addend := 0 |}. split; [split; reflexivity|].
  split; [reflexivity|]. eexists. split; reflexivity.
Qed.
(** RISC-V, LoongArch: a symbol of the original with a version is left to be found by name again. *)
Theorem C92_versioned : forall A dyn orig patch syms r y addr bs r' oy bs', A = friscv \/ A = flarch ->
  fixup_one A dyn orig patch syms r y addr bs = FOk (r', oy, bs') -> y_type y <> 3 -> y_type y <> 6 ->
  our_section (o_secs patch) (y_shndx y) = false -> y_shndx y <> 0 -> In 64 (y_name y) ->
  find_scn (y_name y) (tl (o_secs orig)) = None ->
  exists y', oy = Some y' /\ y_shndx y' = 0 /\ y_name y' = y_name y /\ y_value y' = y_value y /\ y_type y' = y_type y /\ y_bind y' = y_bind y.
Proof.
  intros A dyn orig patch syms r y addr bs r' oy bs' HA H T3 T6 O U I F. unfold fixup_one in H.
  rewrite (proj2 (Z.eqb_neq (y_type y) STT_SECTION) T3), (proj2 (Z.eqb_neq (y_type y) STT_TLS) T6), O in H.
  destruct (_ && _) in H; [discriminate|]. cbv zeta in H.
  match type of H with match ?x with Some _ => _ | None => _ end = _ => destruct x as [r1|]; [|discriminate] end.
  rewrite (proj2 (Z.eqb_neq (y_shndx y) SHN_UNDEF) U) in H.
  match type of H with match ?x with FOk _ => _ | _ => _ end = _ => destruct x as [b| | |]; try discriminate end.
  assert (E : existsb (Z.eqb AT) (y_name y) = true) by (apply existsb_exists; exists 64; split; [exact I|reflexivity]).
  assert (C : f_copy A = true) by (destruct HA as [->| ->]; reflexivity).
  rewrite C, E, F in H. cbn [andb] in H. injection H as _ <- _. eexists. split; [reflexivity|]. repeat split.
Qed.
Print Assumptions C92_versioned.
