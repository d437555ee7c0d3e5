(** Properties of the relocation of patches: C29-C33, C71. *)
From Coq Require Import ZArith List Bool Lia.
From Verif Require Import Base BaseProofs JumpSpec RelocModel RelocSpec RelocProofs RelocA64 RelocRv
  RelocLa RelocRefuse.
Import ListNotations.
Open Scope Z_scope.

(** A target section: 64 bytes, 16 bytes into the file, at 0x500000 in the
    patient; the object is loaded at 0x400000. *)
Definition ex_c : rctx :=
  {| t_off := 16; t_size := 48; t_addr := 0x500000; t_info := false; t_load := 0x400000 |}.
Definition ex_sym (v sz shndx ty bind : Z) : sym :=
  {| y_name := []; y_value := v; y_size := sz; y_shndx := shndx; y_type := ty; y_bind := bind |}.
Definition ex_syms : list sym :=
  [ ex_sym 0 0 0 0 0;                        (* the null symbol *)
    ex_sym 0x500100 0x40 1 2 1;              (* a function of the patch *)
    ex_sym 0x500208 0x7f0000001230 0 2 1;    (* undefined: slot and real address *)
    ex_sym 0x10 8 5 6 1 ].                   (* a thread-local variable *)
Definition rel (off ty y a : Z) : rela := {| r_offset := off; r_type := ty; r_sym := y; r_addend := a |}.
Definition ex_buf : list Z := repeat 0x11 80.

Lemma ex_buf_ok : bytes_ok ex_buf.
Proof. apply Forall_forall. intros x Hx. apply repeat_spec in Hx. subst x. unfold byte_ok. lia. Qed.
Ltac pairs := unfold disjoint_fields;
  repeat first [apply FOP_nil | apply FOP_cons | apply Forall_nil | apply Forall_cons];
  first [left; vm_compute; discriminate | right; vm_compute; discriminate].

(** ** C29.  x86-64 *)
(** After the relocations of a section were applied, every field has the value
    required of it, and no byte outside the fields has changed. *)
Theorem C29_x86_section : forall c syms rs buf buf',
  apply_loop (x86_reloc c syms) [] rs buf = ROk buf' -> bytes_ok buf ->
  disjoint_fields x86_width c rs ->
  length buf' = length buf /\
  (forall i, 0 <= i ->
     (forall r, In r rs -> ~ in_range i (locn c r) (x86_width (r_type r))) ->
     nth_error buf' (Z.to_nat i) = nth_error buf (Z.to_nat i)) /\
  (forall r s n v, In r rs -> nth_error syms (Z.to_nat (r_sym r)) = Some s ->
     x86_right c s r n v -> 0 < n -> has buf' (locn c r) n (v mod 2 ^ (8 * n))).
Proof. exact x86_section. Qed.
Print Assumptions C29_x86_section.

(** One entry at a time, whatever the other entries are. *)
Theorem C29_x86_entry : forall c syms prev r buf b s n v,
  x86_reloc c syms prev r buf = Next b ->
  nth_error syms (Z.to_nat (r_sym r)) = Some s ->
  x86_right c s r n v ->
  only_at buf b (locn c r) n /\ (0 < n -> has b (locn c r) n (v mod 2 ^ (8 * n))).
Proof. exact x86_step_right. Qed.
Print Assumptions C29_x86_entry.

(** Entries that start beyond the section and entries of unknown types are refused, and a
    section with such an entry is not accepted. *)
Theorem C29_x86_refuses : forall c syms prev r buf s,
  nth_error syms (Z.to_nat (r_sym r)) = Some s ->
  t_size c <= r_offset r \/ x86_known (r_type r) = false ->
  x86_reloc c syms prev r buf = Fail.
Proof. exact x86_unknown_fails. Qed.
Print Assumptions C29_x86_refuses.

Theorem C29_x86_accepts_only_known : forall c syms rs buf buf',
  apply_loop (x86_reloc c syms) [] rs buf = ROk buf' ->
  Forall (fun r => r_offset r < t_size c /\ x86_known (r_type r) = true) rs.
Proof. exact x86_accepted. Qed.
Print Assumptions C29_x86_accepts_only_known.

Definition ex_x86 : list rela :=
  [ rel 0 1 1 8; rel 8 2 1 (-4); rel 12 9 2 (-4); rel 16 22 3 0x2000; rel 20 11 1 0; rel 24 0 1 0 ].
Example C29_hyps :
  (exists b, apply_loop (x86_reloc ex_c ex_syms) [] ex_x86 ex_buf = ROk b /\
     slice b 16 8 = Some (le_bytes 8 0x500108) /\
     slice b 24 4 = Some (le_bytes 4 (0x500100 - 4 - 0x500008)) /\
     slice b 28 4 = Some (le_bytes 4 (0x500208 + 8 - 4 - 0x50000c)) /\
     slice b 32 4 = Some (le_bytes 4 (0x402000 - 0x500014))) /\
  disjoint_fields x86_width ex_c ex_x86 /\
  (exists s, nth_error ex_syms 2 = Some s /\ x86_right ex_c s (rel 12 9 2 (-4)) 4 0x200) /\
  (exists s, nth_error ex_syms 3 = Some s /\
     x86_right ex_c s (rel 16 22 3 0x2000) 4 (0x402000 - 0x500014)).
Proof.
  split; [eexists; repeat split; (vm_compute; reflexivity)|]. split; [pairs|]. split.
  - eexists. split; [reflexivity|].
    exact (xr_got ex_c (ex_sym 0x500208 0x7f0000001230 0 2 1) (rel 12 9 2 (-4)) eq_refl
             (or_introl eq_refl) (or_introl eq_refl)).
  - eexists. split; [reflexivity|].
    assert (U : ~ undefined (ex_sym 0x10 8 5 6 1)) by (unfold undefined; cbn; lia).
    exact (xr_tls ex_c _ (rel 16 22 3 0x2000) U eq_refl (or_intror (or_introl eq_refl))).
Qed.

(** The section's end is not looked at: a field that starts inside the section and
    ends outside is written. *)
Theorem C29_field_past_section_end_refuted : exists c syms r buf b i,
  r_offset r < t_size c /\
  x86_reloc c syms [] r buf = Next b /\
  t_off c + t_size c <= i /\ nth_error b (Z.to_nat i) <> nth_error buf (Z.to_nat i).
Proof.
  exists ex_c, ex_syms, (rel 47 1 1 0), ex_buf. eexists. exists 66.
  split; [reflexivity|]. split; [vm_compute; reflexivity|]. split; [vm_compute; congruence|].
  vm_compute. discriminate.
Qed.
Print Assumptions C29_field_past_section_end_refuted.

(** TPOFF32 and TPOFF64 are reported on stderr and then passed over: the entry is
    accepted, the field keeps what the assembler left in it. *)
Theorem C29_tpoff_passed_over : forall c syms prev r buf s,
  nth_error syms (Z.to_nat (r_sym r)) = Some s -> r_offset r < t_size c ->
  r_type r = 18 \/ r_type r = 23 ->
  x86_reloc c syms prev r buf = Next buf.
Proof.
  intros c syms prev r buf s Hs Ho Ht. unfold x86_reloc.
  destruct (Z.leb_spec (t_size c) (r_offset r)); [lia|]. rewrite Hs.
  destruct Ht as [Ht|Ht]; rewrite Ht; reflexivity.
Qed.
Print Assumptions C29_tpoff_passed_over.
Theorem C29_tpoff_accepted_refuted : exists c syms r buf s,
  nth_error syms (Z.to_nat (r_sym r)) = Some s /\ r_type r = 23 /\ y_type s = 6 /\
  x86_reloc c syms [] r buf = Next buf.
Proof.
  exists ex_c, ex_syms, (rel 16 23 3 0), ex_buf. eexists. split; [reflexivity|].
  split; [reflexivity|]. split; [reflexivity|]. vm_compute. reflexivity.
Qed.
Print Assumptions C29_tpoff_accepted_refuted.

(** A GOT reference (say [mov foo@GOTPCREL(%rip), %rax], addend -4) has to read a
    cell with the address of the symbol.  For a symbol defined in the patch the
    instruction is made to read the symbol itself. *)
Theorem C29_got_of_defined_symbol : forall c syms prev r buf b s,
  x86_reloc c syms prev r buf = Next b ->
  nth_error syms (Z.to_nat (r_sym r)) = Some s ->
  In (r_type r) [9; 41; 42] -> ~ undefined s -> y_type s <> 6 -> r_addend r = -4 ->
  fits_signed 32 (y_value s - 4 - place c r) ->
  exists d, has b (locn c r) 4 d /\ u64 (place c r + 4 + sext 32 d) = u64 (y_value s).
Proof.
  intros c syms prev r buf b s H Hs Ht Hu Hy Ha Hf.
  destruct (x86_reloc_inv _ _ _ _ _ _ H) as (s' & Es' & _ & _ & O & Hh & _).
  assert (s' = s) by congruence. subst s'.
  assert (W : x86_width (r_type r) = 4) by (destruct Ht as [E|[E|[E|[]]]]; rewrite <- E; reflexivity).
  rewrite W in Hh. specialize (Hh ltac:(lia)).
  assert (V : x86_value c s r = y_value s - 4 - place c r).
  { unfold x86_value. destruct (is_undef_symbol s) eqn:E; [apply undef_iff in E; contradiction|].
    rewrite andb_false_r, Ha. replace (y_type s =? STT_TLS) with false by (unfold STT_TLS; lia).
    unfold place. destruct Ht as [E1|[E1|[E1|[]]]]; rewrite <- E1; cbn; lia. }
  rewrite V in Hh. eexists. split; [exact Hh|].
  change (8 * 4) with 32. rewrite (fits_signed_exact _ 32) by (auto; lia).
  unfold u64. rewrite Z.add_mod, sext64_mod, <- Z.add_mod by lia. f_equal. lia.
Qed.
Print Assumptions C29_got_of_defined_symbol.
Example C29_got_hyps :
  (exists b, x86_reloc ex_c ex_syms [] (rel 4 42 1 (-4)) ex_buf = Next b) /\
  fits_signed 32 (0x500100 - 4 - place ex_c (rel 4 42 1 (-4))).
Proof. split; [eexists; vm_compute; reflexivity|vm_compute; split; congruence]. Qed.

(** With a symbol in the section itself: what the instruction reads is not the
    symbol's address. *)
Theorem C29_got_of_defined_symbol_refuted : exists c syms r buf b s d v,
  nth_error syms (Z.to_nat (r_sym r)) = Some s /\ r_type r = 42 /\ r_addend r = -4 /\
  x86_reloc c syms [] r buf = Next b /\ has b (locn c r) 4 d /\
  has b (t_off c + (place c r + 4 + d - t_addr c)) 8 v /\ v <> y_value s.
Proof.
  exists ex_c, [ex_sym 0 0 0 0 0; ex_sym 0x500020 8 1 1 1], (rel 4 42 1 (-4)), ex_buf.
  do 4 eexists. split; [reflexivity|]. split; [reflexivity|]. split; [reflexivity|].
  split; [vm_compute; reflexivity|]. split; [eexists; split; (vm_compute; reflexivity)|].
  split; [eexists; split; (vm_compute; reflexivity)|]. vm_compute. discriminate.
Qed.
Print Assumptions C29_got_of_defined_symbol_refuted.

(** ** C30.  Values that do not fit *)
(** x86-64: nothing is refused; if the required value fits its field, the field
    represents it. *)
Theorem C30_x86_exact_when_fits_partial : forall c syms prev r buf b s v,
  x86_reloc c syms prev r buf = Next b ->
  nth_error syms (Z.to_nat (r_sym r)) = Some s ->
  x86_right c s r 4 v ->
  exists d, has b (locn c r) 4 d /\
    (fits_signed 32 v -> sext 32 d = sext 64 v) /\ (fits_unsigned 32 v -> d = u64 v).
Proof.
  intros c syms prev r buf b s v H Hs Hr.
  destruct (x86_step_right _ _ _ _ _ _ _ _ _ H Hs Hr) as [_ Hh].
  exists (v mod 2 ^ 32). split; [apply Hh; lia|]. split.
  - intros Hf. apply fits_signed_exact; auto. lia.
  - intros Hf. unfold u64. apply fits_unsigned_exact; auto. lia.
Qed.
Print Assumptions C30_x86_exact_when_fits_partial.

(** A call to a function 4 GiB away. *)
Theorem C30_x86_truncation_accepted_refuted : exists c syms r buf b s d,
  nth_error syms (Z.to_nat (r_sym r)) = Some s /\ r_type r = 2 /\
  x86_reloc c syms [] r buf = Next b /\ has b (locn c r) 4 d /\
  sext 32 d <> sext 64 (y_value s + r_addend r - place c r).
Proof.
  exists ex_c, [ex_sym 0 0 0 0 0; ex_sym 0x7f0000001230 0 1 2 1], (rel 8 2 1 (-4)), ex_buf.
  eexists. eexists. eexists. split; [reflexivity|]. split; [reflexivity|].
  split; [vm_compute; reflexivity|]. split; [eexists; split; (vm_compute; reflexivity)|].
  vm_compute. discriminate.
Qed.
Print Assumptions C30_x86_truncation_accepted_refuted.

(** RISC-V: 32-bit data, calls and the HI20 types refuse what is not a 32-bit
    signed number. *)
Theorem C30_riscv_refuses_partial : forall e c prev r st s,
  nth_error (v_syms st) (Z.to_nat (r_sym r)) = Some s ->
  rv_adjusts s (r_type r) = false ->
  In (r_type r) [1; 56; 57; 18; 19; 23; 26] ->
  ~ (- 2 ^ 31 <= (if existsb (Z.eqb (r_type r)) [57; 18; 19; 23]
                  then dist (y_value s + r_addend r) (place c r)
                  else sext 64 (y_value s + r_addend r)) < 2 ^ 31) ->
  rv_reloc e c prev r st = Fail.
Proof. exact rv_refuses. Qed.
Print Assumptions C30_riscv_refuses_partial.
Definition ex_env : rvenv := {| e_jmp := 0x500200; e_peek := fun _ => Some 0x1234 |}.
Definition ex_st (syms : list sym) : rvst := {| v_buf := ex_buf; v_syms := syms; v_tab := repeat 0 64 |}.
Example C30_riscv_hyps :
  rv_reloc ex_env ex_c [] (rel 8 18 1 0) (ex_st [ex_sym 0 0 0 0 0; ex_sym 0x7f0000001230 0 1 2 1]) = Fail /\
  (exists st', rv_reloc ex_env ex_c [] (rel 8 18 1 0) (ex_st ex_syms) = Next st').
Proof. split; [reflexivity|]. eexists. vm_compute. reflexivity. Qed.

(** What can be reached is not refused. *)
Theorem C30_riscv_accepts : forall e c prev r st s,
  nth_error (v_syms st) (Z.to_nat (r_sym r)) = Some s -> r_offset r < t_size c ->
  rv_adjusts s (r_type r) = false ->
  In (r_type r) [1; 56; 57; 18; 19; 23; 26] ->
  - 2 ^ 31 <= (if existsb (Z.eqb (r_type r)) [57; 18; 19; 23]
                  then dist (y_value s + r_addend r) (place c r)
                  else sext 64 (y_value s + r_addend r)) < 2 ^ 31 ->
  0 <= locn c r -> locn c r + 8 <= zlen (v_buf st) ->
  exists st', rv_reloc e c prev r st = Next st'.
Proof. exact rv_accepts. Qed.
Print Assumptions C30_riscv_accepts.
(** JAL is refused from 2 MiB on forwards and beyond 1 MiB backwards, and never within 1 MiB. *)
Theorem C30_riscv_jal : forall e c prev r st s,
  nth_error (v_syms st) (Z.to_nat (r_sym r)) = Some s -> r_offset r < t_size c -> r_type r = 17 ->
  let d := dist (y_value s + r_addend r) (place c r) in
  (~ (- 2 ^ 20 <= d < 2 ^ 21) -> rv_reloc e c prev r st = Fail) /\
  (- 2 ^ 20 <= d < 2 ^ 20 -> 0 <= locn c r -> locn c r + 4 <= zlen (v_buf st) -> exists st', rv_reloc e c prev r st = Next st').
Proof. exact rv_jal_reach. Qed.
Print Assumptions C30_riscv_jal.
Example C30_riscv_accepts_hyps :
  - 2 ^ 20 <= dist (0x400008 + 0) (place ex_c (rel 8 17 1 0)) < 2 ^ 20 /\
  (exists st', rv_reloc ex_env ex_c [] (rel 8 17 1 0) (ex_st [ex_sym 0 0 0 0 0; ex_sym 0x400008 0 1 2 1]) = Next st') /\
  rv_reloc ex_env ex_c [] (rel 8 17 1 0) (ex_st [ex_sym 0 0 0 0 0; ex_sym 0x700008 0 1 2 1]) = Fail.
Proof. split; [vm_compute; split; congruence|]. split; [eexists; vm_compute; reflexivity|]. reflexivity. Qed.

(** JAL: the test accepts distances from 2^20 up to 2^21, whose encoding is a
    jump backwards. *)
Theorem C30_riscv_jal_refuted : exists e c syms r st st' s w,
  nth_error syms (Z.to_nat (r_sym r)) = Some s /\ r_type r = 17 /\ v_syms st = syms /\
  rv_reloc e c [] r st = Next st' /\ has (v_buf st') (locn c r) 4 w /\
  dist (y_value s + r_addend r) (place c r) = 2 ^ 20 /\ j_imm w = - 2 ^ 20.
Proof.
  exists ex_env, ex_c, [ex_sym 0 0 0 0 0; ex_sym 0x600008 0 1 2 1], (rel 8 17 1 0).
  eexists (ex_st _). eexists. eexists. eexists.
  split; [reflexivity|]. split; [reflexivity|]. split; [reflexivity|].
  split; [vm_compute; reflexivity|]. split; [eexists; split; (vm_compute; reflexivity)|].
  split; (vm_compute; reflexivity).
Qed.
Print Assumptions C30_riscv_jal_refuted.

(** Calls: distances from 2^31 - 2^11 are accepted; auipc's sign extension then
    sends the call 4 GiB lower. *)
Theorem C30_riscv_call_refuted : exists e c r st st' s w,
  nth_error (v_syms st) (Z.to_nat (r_sym r)) = Some s /\ r_type r = 18 /\
  rv_reloc e c [] r st = Next st' /\ has (v_buf st') (locn c r) 8 w /\
  dist (y_value s + r_addend r) (place c r) = 2 ^ 31 - 2 ^ 11 /\
  u_imm (bits w 31 0) + i_imm (bits w 63 32) = - 2 ^ 31 - 2 ^ 11.
Proof.
  exists ex_env, ex_c, (rel 8 18 1 0), (ex_st [ex_sym 0 0 0 0 0; ex_sym (0x500008 + 2 ^ 31 - 2 ^ 11) 0 1 2 1]).
  eexists. eexists. eexists.
  split; [reflexivity|]. split; [reflexivity|].
  split; [vm_compute; reflexivity|]. split; [eexists; split; (vm_compute; reflexivity)|].
  split; (vm_compute; reflexivity).
Qed.
Print Assumptions C30_riscv_call_refuted.

(** LoongArch: branches and pcaddi refuse targets out of reach and misaligned ones. *)
Theorem C30_loongarch_refuses_partial : forall c syms prev r s buf k,
  nth_error syms (Z.to_nat (r_sym r)) = Some s ->
  la_no_mark c s r ->
  In (r_type r, k) [(64, 17); (65, 22); (66, 27); (103, 21)] ->
  ~ (- 2 ^ k <= dist (y_value s + r_addend r) (place c r) < 2 ^ k) \/
  dist (y_value s + r_addend r) (place c r) mod 4 <> 0 ->
  la_reloc c syms prev r buf = Fail.
Proof. exact la_refuses. Qed.
Print Assumptions C30_loongarch_refuses_partial.
Theorem C30_loongarch_accepts : forall c syms prev r s buf k,
  nth_error syms (Z.to_nat (r_sym r)) = Some s -> r_offset r < t_size c ->
  In (r_type r, k) [(64, 17); (65, 22); (66, 27); (103, 21)] ->
  - 2 ^ k <= dist (y_value s + r_addend r) (place c r) < 2 ^ k -> dist (y_value s + r_addend r) (place c r) mod 4 = 0 ->
  0 <= locn c r -> locn c r + 4 <= zlen buf ->
  exists b, la_reloc c syms prev r buf = Next b.
Proof. exact la_accepts. Qed.
Print Assumptions C30_loongarch_accepts.
Example C30_loongarch_hyps :
  la_reloc ex_c [ex_sym 0 0 0 0 0; ex_sym 0x7f0000001230 0 1 2 1] [] (rel 8 66 1 0) ex_buf = Fail /\
  (exists b, la_reloc ex_c ex_syms [] (rel 8 66 1 0) ex_buf = Next b).
Proof. split; [reflexivity|]. eexists. vm_compute. reflexivity. Qed.

(** 32-bit data is truncated. *)
Theorem C30_loongarch_32_refuted : exists c syms r buf b s d,
  nth_error syms (Z.to_nat (r_sym r)) = Some s /\ r_type r = 1 /\
  la_reloc c syms [] r buf = Next b /\ has b (locn c r) 4 d /\
  d <> u64 (y_value s + r_addend r) /\ sext 32 d <> sext 64 (y_value s + r_addend r).
Proof.
  exists ex_c, [ex_sym 0 0 0 0 0; ex_sym 0x7f0000001230 0 1 2 1], (rel 8 1 1 0), ex_buf.
  eexists. eexists. eexists. split; [reflexivity|]. split; [reflexivity|].
  split; [vm_compute; reflexivity|]. split; [eexists; split; (vm_compute; reflexivity)|].
  split; vm_compute; discriminate.
Qed.
Print Assumptions C30_loongarch_32_refuted.

(** ** C31.  AArch64 *)
Theorem C31_aarch64_section : forall c syms rs buf buf',
  apply_loop (a64_reloc c syms) [] rs buf = ROk buf' -> bytes_ok buf ->
  Forall sym_ok syms -> (forall r, In r rs -> ~ local_tls syms r) ->
  disjoint_fields a64_width c rs ->
  length buf' = length buf /\
  (forall i, 0 <= i ->
     (forall r, In r rs -> ~ in_range i (locn c r) (a64_width (r_type r))) ->
     nth_error buf' (Z.to_nat i) = nth_error buf (Z.to_nat i)) /\
  (forall r s, In r rs -> nth_error syms (Z.to_nat (r_sym r)) = Some s ->
     0 < a64_width (r_type r) -> exists w w',
     has buf (locn c r) (a64_width (r_type r)) w /\
     has buf' (locn c r) (a64_width (r_type r)) w' /\
     a64_good s (r_type r) (a64_X c s r) (u64 (place c r)) w w').
Proof. exact a64_section. Qed.
Print Assumptions C31_aarch64_section.

Theorem C31_aarch64_refuses : forall c syms prev r buf s,
  nth_error syms (Z.to_nat (r_sym r)) = Some s -> ~ local_tls syms r ->
  t_size c <= r_offset r \/ a64_known (r_type r) = false ->
  a64_reloc c syms prev r buf = Fail.
Proof. exact a64_unknown_fails. Qed.
Print Assumptions C31_aarch64_refuses.

Definition ex_a64 : list rela :=
  [ rel 0 257 1 8; rel 8 283 1 0; rel 12 275 1 0x1234; rel 16 277 1 0x1234; rel 20 312 2 0; rel 24 282 1 0 ].
Example C31_hyps :
  (exists b, apply_loop (a64_reloc ex_c ex_syms) [] ex_a64 ex_buf = ROk b /\
     slice b 24 4 = Some (le_bytes 4 (0x10000000 + (0x500100 - 0x500008) / 4))) /\
  Forall sym_ok ex_syms /\ (forall r, In r ex_a64 -> ~ local_tls ex_syms r) /\
  disjoint_fields a64_width ex_c ex_a64.
Proof.
  split; [eexists; repeat split; (vm_compute; reflexivity)|]. split.
  { repeat constructor; vm_compute; congruence. }
  split; [|pairs]. intros r Hr (s & Hs & Ht & _).
  repeat (destruct Hr as [<-|Hr]; [apply some_inj in Hs; subst s; discriminate|]). destruct Hr.
Qed.

(** Loads and stores of 4 bytes and of 1 byte scale their offset by 4 and by 1; the
    code always divides by 8. *)
Theorem C31_ldst32_refuted : exists c syms r buf b s w,
  nth_error syms (Z.to_nat (r_sym r)) = Some s /\ r_type r = 285 /\
  a64_reloc c syms [] r buf = Next b /\ has b (locn c r) 4 w /\
  imm12 w * 4 <> (y_value s + r_addend r) mod 4096 /\ (y_value s + r_addend r) mod 8 = 0.
Proof.
  exists ex_c, ex_syms, (rel 8 285 1 0), ex_buf. eexists. eexists. eexists.
  split; [reflexivity|]. split; [reflexivity|].
  split; [vm_compute; reflexivity|]. split; [eexists; split; (vm_compute; reflexivity)|].
  split; [vm_compute; discriminate|vm_compute; reflexivity].
Qed.
Print Assumptions C31_ldst32_refuted.
Theorem C31_ldst8_refuted : exists c syms r buf b s w,
  nth_error syms (Z.to_nat (r_sym r)) = Some s /\ r_type r = 278 /\
  a64_reloc c syms [] r buf = Next b /\ has b (locn c r) 4 w /\
  imm12 w <> (y_value s + r_addend r) mod 4096.
Proof.
  exists ex_c, ex_syms, (rel 8 278 1 0), ex_buf. eexists. eexists. eexists.
  split; [reflexivity|]. split; [reflexivity|].
  split; [vm_compute; reflexivity|]. split; [eexists; split; (vm_compute; reflexivity)|].
  vm_compute; discriminate.
Qed.
Print Assumptions C31_ldst8_refuted.

(** A call 128 MiB away is accepted and goes elsewhere; so is a page 4 GiB away. *)
Theorem C31_call_out_of_range_refuted : exists c syms r buf b s w,
  nth_error syms (Z.to_nat (r_sym r)) = Some s /\ r_type r = 283 /\
  a64_reloc c syms [] r buf = Next b /\ has b (locn c r) 4 w /\
  b26_target (place c r) w <> y_value s + r_addend r.
Proof.
  exists ex_c, [ex_sym 0 0 0 0 0; ex_sym 0x8500008 0 1 2 1], (rel 8 283 1 0), ex_buf.
  eexists. eexists. eexists.
  split; [reflexivity|]. split; [reflexivity|].
  split; [vm_compute; reflexivity|]. split; [eexists; split; (vm_compute; reflexivity)|].
  vm_compute; discriminate.
Qed.
Print Assumptions C31_call_out_of_range_refuted.
Theorem C31_page_out_of_range_refuted : exists c syms r buf b s w,
  nth_error syms (Z.to_nat (r_sym r)) = Some s /\ r_type r = 275 /\
  a64_reloc c syms [] r buf = Next b /\ has b (locn c r) 4 w /\
  adrp_result (place c r) w <> pg12 (y_value s + r_addend r).
Proof.
  exists ex_c, [ex_sym 0 0 0 0 0; ex_sym 0x100500008 0 1 1 1], (rel 8 275 1 0), ex_buf.
  eexists. eexists. eexists.
  split; [reflexivity|]. split; [reflexivity|].
  split; [vm_compute; reflexivity|]. split; [eexists; split; (vm_compute; reflexivity)|].
  vm_compute; discriminate.
Qed.
Print Assumptions C31_page_out_of_range_refuted.

(** A relocation against a local thread-local symbol ends the section's relocation with
    success: whatever comes after it in the section is not relocated. *)
Theorem C31_local_tls_skips_rest : forall c syms rs1 r rs2 buf buf' s,
  apply_loop (a64_reloc c syms) [] rs1 buf = ROk buf' ->
  (forall r, In r rs1 -> ~ local_tls syms r) ->
  nth_error syms (Z.to_nat (r_sym r)) = Some s -> y_type s = 6 -> y_bind s = 0 ->
  r_offset r < t_size c ->
  apply_loop (a64_reloc c syms) [] (rs1 ++ r :: rs2) buf = ROk buf'.
Proof.
  intros c syms rs1. generalize (@nil rela) as prev.
  induction rs1 as [|r1 rs1 IH]; intros prev r rs2 buf buf' s H Hl Hs Ht Hb Ho.
  - cbn in H |- *. injection H as <-. unfold a64_reloc.
    destruct (Z.leb_spec (t_size c) (r_offset r)); [lia|]. rewrite Hs, Ht, Hb. reflexivity.
  - cbn [apply_loop app] in H |- *. destruct (a64_reloc c syms prev r1 buf) as [b|b| |] eqn:E; try discriminate.
    + eapply IH; eauto. intros. apply Hl. now right.
    + exfalso. apply a64_stop in E. apply (Hl r1); [now left|auto].
Qed.
Print Assumptions C31_local_tls_skips_rest.
Theorem C31_local_tls_skips_rest_refuted : exists c syms rs buf b r,
  apply_loop (a64_reloc c syms) [] rs buf = ROk b /\ In r rs /\ r_type r = 257 /\
  only_at buf b (t_off c) 8 /\ t_off c + 8 <= locn c r.
Proof.
  exists ex_c, (ex_syms ++ [ex_sym 0x10 8 5 6 0]), ([rel 0 257 1 8] ++ rel 8 541 4 0 :: [rel 16 257 1 8]), ex_buf.
  destruct (apply_loop (a64_reloc ex_c (ex_syms ++ [ex_sym 0x10 8 5 6 0])) [] [rel 0 257 1 8] ex_buf)
    as [b| |] eqn:E; try (vm_compute in E; discriminate).
  exists b, (rel 16 257 1 8).
  assert (L : forall r, In r [rel 0 257 1 8] -> ~ local_tls (ex_syms ++ [ex_sym 0x10 8 5 6 0]) r).
  { intros r [<-|[]] (s & Hs & Ht & _). apply some_inj in Hs. subst s. discriminate. }
  split; [exact (C31_local_tls_skips_rest ex_c _ _ (rel 8 541 4 0) _ _ _ _ E L eq_refl eq_refl eq_refl eq_refl)|].
  split; [right; right; now left|]. split; [reflexivity|]. split; [|vm_compute; discriminate].
  cbn [apply_loop] in E. destruct (a64_reloc _ _ _ _ _) as [b1|b1| |] eqn:E1; try discriminate.
  - injection E as <-. destruct (a64_reloc_inv _ _ _ _ _ _ _ ex_buf_ok E1 eq_refl) as (_ & _ & _ & O & _).
    + split; vm_compute; split; congruence.
    + exact O.
Qed.
Print Assumptions C31_local_tls_skips_rest_refuted.

(** adrp + ldr for an undefined object has to read the address stored in the
    second half of the object's jump-table slot.  It does, for targets in reach,
    unless slot + 8 is in the next page. *)
Theorem C31_got_pair_partial : forall s X P w1 w1' w2 w2',
  a64_good s 311 X P w1 w1' -> a64_good s 312 X P w2 w2' ->
  y_type s = 1 -> y_shndx s = 0 -> y_bind s = 1 ->
  addr_ok X -> X mod 8 = 0 -> - 2 ^ 32 <= pg12 X - pg12 P < 2 ^ 32 ->
  X mod 4096 < 4088 ->
  adrp_result P w1' + imm12 w2' * 8 = X + 8.
Proof.
  intros s X P w1 w1' w2 w2' [_ G1] G2 Ht Hn Hb HX H8 Hr Hp. specialize (G1 Hr).
  unfold a64_good, a64_got_right in G2. cbn [Z.eqb Pos.eqb] in G2. rewrite Ht, Hn, Hb in G2. cbn in G2.
  destruct G2 as [_ G2]. specialize (G2 H8). change (bits w2' 21 10) with (imm12 w2') in G2.
  rewrite G1, G2. unfold pg12. clear - Hp.
  assert (E : (X + 8) mod 4096 = X mod 4096 + 8).
  { rewrite Z.add_mod by lia. change (8 mod 4096) with 8. apply Z.mod_small.
    pose proof (Z.mod_pos_bound X 4096). lia. }
  rewrite E. pose proof (Z.div_mod X 4096). lia.
Qed.
Print Assumptions C31_got_pair_partial.
Example C31_got_pair_hyps :
  let s := ex_sym 0x500208 0x7f0000001230 0 1 1 in
  exists w1 w2, a64_good s 311 0x500208 0x500010 0x90000001 w1 /\
                a64_good s 312 0x500208 0x500014 0xf9400021 w2 /\
                adrp_result 0x500010 w1 + imm12 w2 * 8 = 0x500210.
Proof.
  set (s := ex_sym 0x500208 0x7f0000001230 0 1 1).
  assert (B : bytes_ok (le_bytes 4 0x90000001 ++ le_bytes 4 0xf9400021)).
  { repeat constructor; vm_compute; congruence. }
  destruct (a64_apply_inv (rel 0 311 0 0) s _ 0 0x500010 0x500208 _
    ltac:(vm_compute; split; congruence) ltac:(vm_compute; split; congruence) B eq_refl)
    as (_ & _ & _ & H1).
  destruct (a64_apply_inv (rel 4 312 0 0) s _ 4 0x500014 0x500208 _
    ltac:(vm_compute; split; congruence) ltac:(vm_compute; split; congruence) B eq_refl)
    as (_ & _ & _ & H2).
  destruct H1 as (w1 & w1' & X1 & Y1 & G1); [reflexivity|].
  destruct H2 as (w2 & w2' & X2 & Y2 & G2); [reflexivity|].
  assert (w1 = 0x90000001) by (destruct X1 as (bs & X & <-); vm_compute in X; apply some_inj in X; subst bs; reflexivity).
  assert (w2 = 0xf9400021) by (destruct X2 as (bs & X & <-); vm_compute in X; apply some_inj in X; subst bs; reflexivity).
  subst w1 w2. exists w1', w2'. split; [exact G1|]. split; [exact G2|].
  destruct Y1 as (b1 & Z1 & <-). destruct Y2 as (b2 & Z2 & <-).
  vm_compute in Z1, Z2. apply some_inj in Z1, Z2. subst b1 b2. vm_compute. reflexivity.
Qed.

(** Slot 223 of a page-aligned jump table at its usual place (520 bytes into the
    patch area) is in the last 8 bytes of a page. *)
Theorem C31_got_pair_page_end_refuted : exists c syms rs buf b s w1 w2,
  nth_error syms 1 = Some s /\ y_value s = 0x500000 + 520 + 16 * 223 /\
  rs = [rel 8 311 1 0; rel 12 312 1 0] /\
  apply_loop (a64_reloc c syms) [] rs buf = ROk b /\
  has b (locn c (rel 8 311 1 0)) 4 w1 /\ has b (locn c (rel 12 312 1 0)) 4 w2 /\
  adrp_result (place c (rel 8 311 1 0)) w1 + imm12 w2 * 8 <> y_value s + 8.
Proof.
  exists ex_c, [ex_sym 0 0 0 0 0; ex_sym (0x500000 + 520 + 16 * 223) 0x7f0000001230 0 1 1],
    [rel 8 311 1 0; rel 12 312 1 0], ex_buf. eexists. eexists. eexists. eexists.
  split; [reflexivity|]. split; [reflexivity|]. split; [reflexivity|].
  split; [vm_compute; reflexivity|]. split; [eexists; split; (vm_compute; reflexivity)|].
  split; [eexists; split; (vm_compute; reflexivity)|]. vm_compute. discriminate.
Qed.
Print Assumptions C31_got_pair_page_end_refuted.

(** ** C32.  RISC-V *)
(** For sections without HI20, TLS_GOT_HI20 and RVC_LUI relocations of undefined
    objects. *)
Theorem C32_riscv_section : forall e c rs st st',
  apply_loop (rv_reloc e c) [] rs st = ROk st' -> bytes_ok (v_buf st) ->
  Forall (rv_plain (v_syms st)) rs ->
  disjoint_fields rv_width c rs ->
  v_syms st' = v_syms st /\ v_tab st' = v_tab st /\
  length (v_buf st') = length (v_buf st) /\
  (forall i, 0 <= i ->
     (forall r, In r rs -> ~ in_range i (locn c r) (rv_width (r_type r))) ->
     nth_error (v_buf st') (Z.to_nat i) = nth_error (v_buf st) (Z.to_nat i)) /\
  (forall r s, In r rs -> ~ In (r_type r) [24; 25] ->
     nth_error (v_syms st) (Z.to_nat (r_sym r)) = Some s ->
     0 < rv_width (r_type r) -> exists w w',
     has (v_buf st) (locn c r) (rv_width (r_type r)) w /\
     has (v_buf st') (locn c r) (rv_width (r_type r)) w' /\
     rv_right (r_type r) (rv_X c s r (u64 (y_value s + r_addend r))) (place c r) 0 w w').
Proof.
  intros e c rs st st' H Hb HF Hd.
  destruct (rv_section e c rs st st' H Hb HF Hd) as (A & B & C & D & Q).
  split; [auto|]. split; [auto|]. split; [auto|]. split; [auto|].
  intros r s Hin Hn Hs Hw. apply in_split in Hin. destruct Hin as (rs1 & rs2 & E).
  destruct (Q rs1 r rs2 s E Hs Hw) as (w & w' & H1 & H2 & H3 & _).
  exists w, w'. split; [auto|]. split; [auto|]. apply H3. intros I. contradiction.
Qed.
Print Assumptions C32_riscv_section.

(** auipc (PCREL_HI20 without addend) and the addi, load or store that refers to
    it (PCREL_LO12) together give the distance to the symbol. *)
Theorem C32_riscv_pcrel_pair_partial : forall e c rs st st' rs1 r1 rs2 r2 rs3 s1 s2,
  apply_loop (rv_reloc e c) [] rs st = ROk st' -> bytes_ok (v_buf st) ->
  Forall (rv_plain (v_syms st)) rs ->
  disjoint_fields rv_width c rs ->
  rs = rs1 ++ r1 :: rs2 ++ r2 :: rs3 ->
  r_type r1 = 23 -> In (r_type r2) [24; 25] ->
  nth_error (v_syms st) (Z.to_nat (r_sym r1)) = Some s1 ->
  nth_error (v_syms st) (Z.to_nat (r_sym r2)) = Some s2 ->
  0 <= r_offset r1 < 2 ^ 64 -> y_value s2 = place c r1 -> y_value s1 <> 0 ->
  Forall (fun r => r_offset r <> r_offset r1) rs2 ->
  r_addend r1 = 0 -> addr_ok (y_value s1) ->
  hi_lo_reach (dist (y_value s1) (place c r1)) ->
  exists w1 w2,
    has (v_buf st') (locn c r1) 4 w1 /\ has (v_buf st') (locn c r2) 4 w2 /\
    u_imm w1 + (if r_type r2 =? 24 then i_imm w2 else s_imm w2) =
      dist (y_value s1) (place c r1).
Proof. exact rv_pair. Qed.
Print Assumptions C32_riscv_pcrel_pair_partial.

Theorem C32_riscv_refuses : forall e c prev r st s,
  nth_error (v_syms st) (Z.to_nat (r_sym r)) = Some s ->
  t_size c <= r_offset r \/ rv_known (r_type r) = false -> rv_reloc e c prev r st = Fail.
Proof. exact rv_unknown_fails. Qed.
Print Assumptions C32_riscv_refuses.

Definition ex_rv_syms : list sym := ex_syms ++ [ex_sym 0x500014 0 1 0 0; ex_sym 0x4028f8 8 1 1 1].
Definition ex_rv : list rela :=
  [ rel 0 2 1 8; rel 8 18 2 0; rel 16 17 1 0; rel 20 23 5 0; rel 24 24 4 0; rel 28 25 4 0; rel 32 57 1 0;
    rel 36 51 0 0 ].
Example C32_hyps :
  match apply_loop (rv_reloc ex_env ex_c) [] ex_rv (ex_st ex_rv_syms) with
  | ROk st' =>
     match slice (v_buf st') 36 4, slice (v_buf st') 40 4 with
     | Some a, Some b => u_imm (le_val a) + i_imm (le_val b) = 0x4028f8 - 0x500014
     | _, _ => False
     end
  | _ => False
  end /\
  Forall (rv_plain ex_rv_syms) ex_rv /\ disjoint_fields rv_width ex_c ex_rv /\
  hi_lo_reach (dist 0x4028f8 0x500014).
Proof.
  split; [vm_compute; reflexivity|]. split; [|split; [pairs|vm_compute; split; congruence]].
  repeat (constructor; [intros s Hs; apply some_inj in Hs; subst s; reflexivity|]). constructor.
Qed.

(** With an addend in the HI20 entry, the low part is computed without it. *)
Theorem C32_riscv_pcrel_addend_refuted : exists e c st st' s w1 w2 rs,
  rs = [rel 20 23 5 0x900; rel 24 24 4 0] /\ nth_error (v_syms st) 5 = Some s /\
  apply_loop (rv_reloc e c) [] rs st = ROk st' /\
  has (v_buf st') (t_off c + 20) 4 w1 /\ has (v_buf st') (t_off c + 24) 4 w2 /\
  u_imm w1 + i_imm w2 <> dist (y_value s + 0x900) (t_addr c + 20).
Proof.
  exists ex_env, ex_c, (ex_st ex_rv_syms). do 4 eexists. eexists.
  split; [reflexivity|]. split; [reflexivity|].
  split; [vm_compute; reflexivity|]. split; [eexists; split; (vm_compute; reflexivity)|].
  split; [eexists; split; (vm_compute; reflexivity)|]. vm_compute. discriminate.
Qed.
Print Assumptions C32_riscv_pcrel_addend_refuted.

(** c.j takes a distance; the code stores the target's address (and refuses most
    of them). *)
Theorem C32_riscv_rvc_jump_refuted : exists e c r st st' s w,
  r_type r = 45 /\ nth_error (v_syms st) (Z.to_nat (r_sym r)) = Some s /\
  rv_reloc e c [] r st = Next st' /\ has (v_buf st') (locn c r) 2 w /\
  dist (y_value s + r_addend r) (place c r) = 0x40 /\ cj_imm w <> 0x40.
Proof.
  exists ex_env, {| t_off := 16; t_size := 48; t_addr := 0x400; t_info := false; t_load := 0 |},
    (rel 0 45 1 0), (ex_st [ex_sym 0 0 0 0 0; ex_sym 0x440 0 1 2 1]). do 3 eexists.
  split; [reflexivity|]. split; [reflexivity|].
  split; [vm_compute; reflexivity|]. split; [eexists; split; (vm_compute; reflexivity)|].
  split; [vm_compute; reflexivity|]. vm_compute. discriminate.
Qed.
Print Assumptions C32_riscv_rvc_jump_refuted.

(** Each HI20 relocation of an undefined object adds 16 to the value of its symbol:
    the second one points into the next slot of the jump table and overwrites it. *)
Theorem C32_riscv_second_object_reference_refuted : exists e c st st1 st2 r1 r2 s,
  nth_error (v_syms st) 2 = Some s /\ undefined s /\ y_type s = 1 /\
  r_sym r1 = 2 /\ r_sym r2 = 2 /\ r_type r1 = 26 /\ r_type r2 = 26 /\
  rv_reloc e c [] r1 st = Next st1 /\ rv_reloc e c [r1] r2 st1 = Next st2 /\
  slice (v_tab st1) (y_value s + 16 - e_jmp e) 8 = Some (le_bytes 8 0x1234) /\
  (* the first 8 bytes after the slot's own 24: code of the next slot *)
  slice (v_tab st1) (y_value s + 32 - e_jmp e) 8 = slice (v_tab st) (y_value s + 32 - e_jmp e) 8 /\
  slice (v_tab st2) (y_value s + 32 - e_jmp e) 8 = Some (le_bytes 8 0x1234) /\
  slice (v_tab st2) (y_value s + 32 - e_jmp e) 8 <> slice (v_tab st1) (y_value s + 32 - e_jmp e) 8.
Proof.
  exists ex_env, ex_c, (ex_st [ex_sym 0 0 0 0 0; ex_sym 0 0 0 0 0; ex_sym 0x500210 0x7f0000001230 0 1 1]).
  eexists. eexists. exists (rel 0 26 2 0), (rel 8 26 2 0). eexists.
  split; [reflexivity|]. split; [now left|]. do 5 (split; [reflexivity|]).
  split; [vm_compute; reflexivity|]. split; [vm_compute; reflexivity|].
  do 3 (split; [vm_compute; reflexivity|]). vm_compute. discriminate.
Qed.
Print Assumptions C32_riscv_second_object_reference_refuted.

(** ** C33.  LoongArch *)
Theorem C33_loongarch_section_partial : forall c syms rs buf buf',
  apply_loop (la_reloc c syms) [] rs buf = ROk buf' -> bytes_ok buf ->
  (forall r s, In r rs -> nth_error syms (Z.to_nat (r_sym r)) = Some s -> la_no_mark c s r) ->
  disjoint_fields la_width c rs ->
  length buf' = length buf /\
  (forall i, 0 <= i ->
     (forall r, In r rs -> ~ in_range i (locn c r) (la_width (r_type r))) ->
     nth_error buf' (Z.to_nat i) = nth_error buf (Z.to_nat i)) /\
  (forall r s, In r rs -> nth_error syms (Z.to_nat (r_sym r)) = Some s ->
     0 < la_width (r_type r) -> exists w w',
     has buf (locn c r) (la_width (r_type r)) w /\
     has buf' (locn c r) (la_width (r_type r)) w' /\
     la_right (r_type r) (y_value s + r_addend r) (place c r) w w').
Proof. exact la_section. Qed.
Print Assumptions C33_loongarch_section_partial.

Theorem C33_loongarch_refuses : forall c syms prev r buf s,
  nth_error syms (Z.to_nat (r_sym r)) = Some s ->
  t_size c <= r_offset r \/ la_known (r_type r) = false ->
  la_reloc c syms prev r buf = Fail.
Proof. exact la_unknown_fails. Qed.
Print Assumptions C33_loongarch_refuses.

Definition ex_la : list rela :=
  [ rel 0 2 1 8; rel 8 66 1 0; rel 12 65 1 0; rel 16 103 1 0; rel 20 72 1 0; rel 24 51 1 0; rel 32 55 1 0 ].
Example C33_hyps :
  match apply_loop (la_reloc ex_c ex_syms) [] ex_la ex_buf with
  | ROk b => match slice b 24 4 with
             | Some a => la_b26_target 0x500008 (le_val a) = 0x500100 | None => False end
  | _ => False
  end /\
  (forall r s, In r ex_la -> nth_error ex_syms (Z.to_nat (r_sym r)) = Some s -> la_no_mark ex_c s r) /\
  disjoint_fields la_width ex_c ex_la.
Proof.
  split; [vm_compute; reflexivity|]. split; [|pairs].
  intros r s Hr Hs. repeat (destruct Hr as [<-|Hr];
    [apply some_inj in Hs; subst s; split; vm_compute; discriminate|]). destruct Hr.
Qed.

(** The upper 20 bits of an address are divided by 4 before they are stored:
    pcalau12i + addi.d does not reach a symbol one page away. *)
Theorem C33_loongarch_pcala_hi20_refuted : exists c syms rs buf b s w1 w2,
  nth_error syms 1 = Some s /\ rs = [rel 8 71 1 0; rel 12 72 1 0] /\
  apply_loop (la_reloc c syms) [] rs buf = ROk b /\
  has b (locn c (rel 8 71 1 0)) 4 w1 /\ has b (locn c (rel 12 72 1 0)) 4 w2 /\
  la_pcalau12i (place c (rel 8 71 1 0)) w1 + la_si12 w2 <> y_value s.
Proof.
  exists ex_c, [ex_sym 0 0 0 0 0; ex_sym 0x501100 0 1 1 1], [rel 8 71 1 0; rel 12 72 1 0], ex_buf.
  do 4 eexists. split; [reflexivity|]. split; [reflexivity|].
  split; [vm_compute; reflexivity|]. split; [eexists; split; (vm_compute; reflexivity)|].
  split; [eexists; split; (vm_compute; reflexivity)|]. vm_compute. discriminate.
Qed.
Print Assumptions C33_loongarch_pcala_hi20_refuted.

(** pcalau12i + addi.d, for a target within 2^19 pages: right if the (rounded) target is on the page of the
    instruction or on the one before, and wrong otherwise. *)
Theorem C33_loongarch_pair : forall c syms rs buf buf' r1 r2 s,
  apply_loop (la_reloc c syms) [] rs buf = ROk buf' -> bytes_ok buf ->
  (forall r s, In r rs -> nth_error syms (Z.to_nat (r_sym r)) = Some s -> la_no_mark c s r) ->
  disjoint_fields la_width c rs ->
  In r1 rs -> In r2 rs -> r_type r1 = 71 -> r_type r2 = 72 -> r_sym r1 = r_sym r2 -> r_addend r1 = r_addend r2 ->
  nth_error syms (Z.to_nat (r_sym r1)) = Some s ->
  let X := y_value s + r_addend r1 in
  let pages := (X + 2048) / 4096 - place c r1 / 4096 in
  - 2 ^ 19 <= pages < 2 ^ 19 ->
  exists w1 w2, has buf' (locn c r1) 4 w1 /\ has buf' (locn c r2) 4 w2 /\
    (u64 (la_pcalau12i (place c r1) w1 + la_si12 w2) = u64 X <-> pages = 0 \/ pages = -1).
Proof.
  intros c syms rs buf buf' r1 r2 s H Hb Hm Hd I1 I2 T1 T2 Es Ea Hs X pages R.
  destruct (la_section c syms rs buf buf' H Hb Hm Hd) as (_ & _ & F).
  destruct (F r1 s I1 Hs) as (w & w1 & _ & H1 & F1); [rewrite T1; reflexivity|].
  destruct (F r2 s I2) as (w' & w2 & _ & H2 & F2); [rewrite <- Es; exact Hs|rewrite T2; reflexivity|].
  rewrite T1 in H1, F1. rewrite T2 in H2, F2. rewrite <- Ea in F2. change (la_width 71) with 4 in H1. change (la_width 72) with 4 in H2.
  exists w1, w2. split; [exact H1|]. split; [exact H2|]. apply (pcala_pair X (place c r1) w1 w2); [reflexivity|apply F1|apply F2|exact R].
Qed.
Print Assumptions C33_loongarch_pair.
Example C33_pair_case : let rs := [rel 8 71 1 0; rel 12 72 1 0] in let syms := [ex_sym 0 0 0 0 0; ex_sym 0x500100 0 1 1 1] in
  (exists b, apply_loop (la_reloc ex_c syms) [] rs ex_buf = ROk b) /\ disjoint_fields la_width ex_c rs /\ (0x500100 + 2048) / 4096 - place ex_c (rel 8 71 1 0) / 4096 = 0.
Proof. split; [eexists; vm_compute; reflexivity|]. split; [pairs|]. vm_compute. reflexivity. Qed.

(** lu12i.w + ori for an absolute address. *)
Theorem C33_loongarch_abs_hi20_refuted : exists c syms rs buf b s w1 w2,
  nth_error syms 1 = Some s /\ rs = [rel 8 67 1 0; rel 12 68 1 0] /\
  apply_loop (la_reloc c syms) [] rs buf = ROk b /\
  has b (locn c (rel 8 67 1 0)) 4 w1 /\ has b (locn c (rel 12 68 1 0)) 4 w2 /\
  4096 * la_si20 w1 + bits w2 21 10 <> y_value s.
Proof.
  exists ex_c, ex_syms, [rel 8 67 1 0; rel 12 68 1 0], ex_buf.
  do 4 eexists. split; [reflexivity|]. split; [reflexivity|].
  split; [vm_compute; reflexivity|]. split; [eexists; split; (vm_compute; reflexivity)|].
  split; [eexists; split; (vm_compute; reflexivity)|]. vm_compute. discriminate.
Qed.
Print Assumptions C33_loongarch_abs_hi20_refuted.

(** 16-bit branches count instructions; the code stores the distance in bytes. *)
Theorem C33_loongarch_b16_refuted : exists c syms r buf b s w,
  nth_error syms (Z.to_nat (r_sym r)) = Some s /\ r_type r = 64 /\
  la_reloc c syms [] r buf = Next b /\ has b (locn c r) 4 w /\
  la_b16_target (place c r) w <> y_value s + r_addend r.
Proof.
  exists ex_c, ex_syms, (rel 8 64 1 0), ex_buf. do 3 eexists.
  split; [reflexivity|]. split; [reflexivity|].
  split; [vm_compute; reflexivity|]. split; [eexists; split; (vm_compute; reflexivity)|].
  vm_compute. discriminate.
Qed.
Print Assumptions C33_loongarch_b16_refuted.

(** ** C71.  Which sections are relocated *)
(** The relocation sections with addends, in the order of the section headers;
    the first that fails ends it. *)
Theorem C71_rela_sections_in_order : forall A (apply : shdr -> A -> res A) sh0 ss a,
  h_type sh0 <> 9 ->
  kpatch_relocate apply (sh0 :: ss) a =
  fold_left (fun o s => match o with ROk a => apply s a | o => o end)
    (filter (fun s => h_type s =? 4) ss) (ROk a).
Proof. intros A apply sh0 ss a H. exact (relocate_rela apply sh0 ss a H). Qed.
Print Assumptions C71_rela_sections_in_order.

Definition ex_shdr (ty info : Z) (rs : list rela) : shdr :=
  {| h_name := []; h_type := ty; h_addr := 0x500000; h_offset := 16; h_size := 48; h_info := info;
     h_relas := rs |}.
Example C71_hyps :
  exists b,
  kpatch_relocate
    (apply_relocate_add x86_reloc [ex_shdr 0 0 []; ex_shdr 1 0 []; ex_shdr 2 0 []; ex_shdr 4 1 ex_x86]
       ex_syms 0x400000)
    [ex_shdr 0 0 []; ex_shdr 1 0 []; ex_shdr 2 0 []; ex_shdr 4 1 ex_x86] ex_buf = ROk b /\
  slice b 16 8 = Some (le_bytes 8 0x500108).
Proof. eexists. split; (vm_compute; reflexivity). Qed.

(** A relocation section without addends (SHT_REL) is meant to be refused; the test
    looks at the type of the null section header instead, and the section is
    passed over. *)
Theorem C71_rel_section_passed_over : forall A (apply : shdr -> A -> res A) sh0 s a,
  h_type sh0 = 0 -> h_type s = 9 -> kpatch_relocate apply [sh0; s] a = ROk a.
Proof.
  intros A apply sh0 s a H0 Hs. cbn. rewrite H0, Hs. reflexivity.
Qed.
Print Assumptions C71_rel_section_passed_over.
Theorem C71_rel_section_ignored_refuted : exists shdrs buf s,
  In s shdrs /\ h_type s = 9 /\ h_relas s <> [] /\
  kpatch_relocate (apply_relocate_add x86_reloc shdrs ex_syms 0x400000) shdrs buf = ROk buf.
Proof.
  exists [ex_shdr 0 0 []; ex_shdr 1 0 []; ex_shdr 2 0 []; ex_shdr 9 1 ex_x86], ex_buf, (ex_shdr 9 1 ex_x86).
  split; [do 3 right; now left|]. split; [reflexivity|]. split; [discriminate|]. vm_compute. reflexivity.
Qed.
Print Assumptions C71_rel_section_ignored_refuted.

(** The relocations of a section are applied to the section its header names: to its place
    in the file and the address it will have; undefined symbols stand for their size only in
    the section called .kpatch.info.  Without a symbol table nothing is done. *)
From Coq Require Import String.
Local Open Scope list_scope.
Theorem C71_target : forall one shdrs syms load relsec buf t,
  (exists s, In s (tl shdrs) /\ h_type s = 2) -> nth_error shdrs (Z.to_nat (h_info relsec)) = Some t ->
  exists c, apply_relocate_add one shdrs syms load relsec buf = apply_loop (one c syms) [] (h_relas relsec) buf /\
    t_off c = h_offset t /\ t_size c = h_size t /\ t_addr c = h_addr t /\ t_load c = load /\
    (t_info c = true <-> h_name t = StorageModel.str ".kpatch.info"%string).
Proof.
  intros one shdrs syms load relsec buf t (s & I & T) N. unfold apply_relocate_add.
  assert (E : existsb (fun s => h_type s =? SHT_SYMTAB) (tl shdrs) = true).
  { apply existsb_exists. exists s. split; [exact I|]. rewrite T. reflexivity. }
  rewrite E. unfold target_ctx. rewrite N. eexists. split; [reflexivity|]. cbn [t_off t_size t_addr t_load t_info].
  repeat (split; [reflexivity|]). rewrite list_eqb_eq. reflexivity.
Qed.
Print Assumptions C71_target.
Theorem C71_no_symbol_table : forall one shdrs syms load relsec buf,
  (forall s, In s (tl shdrs) -> h_type s <> 2) -> apply_relocate_add one shdrs syms load relsec buf = RErr.
Proof.
  intros one shdrs syms load relsec buf H. unfold apply_relocate_add.
  destruct (existsb _ _) eqn:E; [|reflexivity]. apply existsb_exists in E as (s & I & T). apply Z.eqb_eq in T. destruct (H s I T).
Qed.
Print Assumptions C71_no_symbol_table.
