(** C34-C37, C72-C74: jump table, library symbols, address translation, build id,
    headers, kinds of objects, symbols of the patch. *)
From Coq Require Import Permutation Sorted.
From Verif Require Import Base BaseProofs RelocModel ElfModel ElfSpec ElfJump ElfNote ElfDyn
  ElfSeg ElfHdr.

(** ** C34 *)

(** A reference of the patch to a function or variable of another object: type
    OBJECT or FUNC, section 0, binding GLOBAL. *)
Definition is_reference (s : sym) : Prop :=
  (y_type s = 1 \/ y_type s = 2) /\ y_shndx s = 0 /\ y_bind s = 1.

Lemma reference_taker s : is_reference s <-> taker s = true.
Proof.
  unfold is_reference, taker, wants_slot, STT_FUNC, STT_OBJECT, SHN_UNDEF, STB_GLOBAL.
  rewrite !Bool.andb_true_iff, Bool.orb_true_iff, !Z.eqb_eq. tauto.
Qed.

Lemma kpatch_resolve_inv a elf base load resolve shdrs t syms shdrs' syms' t' :
  kpatch_resolve a elf base load resolve shdrs t syms = ROk (shdrs', syms', t') ->
  (exists h0 hs, shdrs = h0 :: hs /\ shdrs' = h0 :: map (place_section elf load) hs) /\
  ((syms = [] /\ syms' = [] /\ t' = t) \/
   exists s0 ss ss', syms = s0 :: ss /\ syms' = s0 :: ss' /\
     resolve_symbols a base resolve shdrs' t ss = ROk (ss', t')).
Proof.
  unfold kpatch_resolve. destruct shdrs as [|h0 hs]; [discriminate|].
  destruct (existsb _ hs); [|discriminate]. destruct syms as [|s0 ss].
  - intros H. injection H as <- <- <-. split; [eauto|left; auto].
  - destruct (resolve_symbols a base resolve (h0 :: map (place_section elf load) hs) t ss)
      as [[ss' t1]| |] eqn:E; try discriminate.
    intros H. injection H as <- <- <-. split; [eauto|right]. exists s0, ss, ss'. auto.
Qed.

Lemma slots_spec a elf base load resolve shdrs syms shdrs' syms' t' :
  kpatch_resolve a elf base load resolve shdrs (make_table syms) syms = ROk (shdrs', syms', t') ->
  (t' = None /\ forall i s, nth_error syms i = Some s -> (1 <= i)%nat -> taker s = false) \/
  exists t, t' = Some t /\ j_max t = count_undefined syms /\ j_cur t <= j_max t /\
    forall i s, nth_error syms i = Some s -> (1 <= i)%nat -> taker s = true ->
      exists u, resolve (y_name s) = ROk u /\ u <> 0 /\
        nth_error (j_addrs t) (ntakers (firstn (i - 1) (tl syms))) = Some u /\
        nth_error syms' i =
          Some (set_value_size s
            (u64 (base + JT_HDR + Z.of_nat (ntakers (firstn (i - 1) (tl syms)))
                                  * jt_entry_size a)) u).
Proof.
  intros H. apply kpatch_resolve_inv in H as [_ [(-> & -> & ->)|(s0 & ss & ss' & -> & -> & H)]].
  { left. split; [reflexivity|]. intros [|i] ? E; discriminate. }
  unfold make_table in H. destruct (count_undefined (s0 :: ss) =? 0) eqn:C.
  - apply resolve_symbols_none in H as [-> H]. left. split; [reflexivity|].
    intros [|i] s E L; [lia|]. cbn [nth_error] in E. apply H. eapply nth_error_In; eauto.
  - apply resolve_symbols_spec in H as (new & -> & Ln & Lm & Ll & Hn).
    2:{ unfold j_cur. cbn [new_jmp_table j_addrs j_max]. change (zlen []) with 0.
        unfold count_undefined. apply zlen_nonneg. }
    right. cbn [new_jmp_table j_max j_addrs app] in *.
    exists {| j_max := count_undefined (s0 :: ss); j_addrs := new |}.
    split; [reflexivity|]. split; [reflexivity|]. split; [exact Lm|].
    intros [|i] s E L T; [lia|]. cbn [nth_error] in E.
    destruct (Hn i s E T) as (u & R1 & R2 & R3 & R4). exists u.
    cbn [tl nth_error j_addrs]. replace (S i - 1)%nat with i by lia.
    repeat split; auto.
Qed.

(** Every reference gets a slot inside the table; its symbol's value is the slot's
    address, and executing the slot in a process that has the table's bytes at
    [base] ends at the resolved address, with all registers but the scratch ones as
    they were. *)
Theorem C34_slot_reaches_target a elf base load resolve shdrs syms shdrs' syms' t' pad :
  kpatch_resolve a elf base load resolve shdrs (make_table syms) syms = ROk (shdrs', syms', t') ->
  0 <= base -> base + 16 + 24 * count_undefined syms + 24 < 2 ^ 64 -> zlen pad = 4 ->
  forall i s, (1 <= i)%nat -> nth_error syms i = Some s -> is_reference s ->
  exists u t s', resolve (y_name s) = ROk u /\ u <> 0 /\ t' = Some t /\
    nth_error syms' i = Some s' /\ y_size s' = u /\
    base + 16 <= y_value s' /\
    y_value s' + jt_entry_size a <= base + zlen (jt_bytes a pad t) /\
    forall m regs, code_addr_ok a u -> holds m base (jt_bytes a pad t) ->
      exists n c, steps (cpu_step a m) n {| pc := y_value s'; reg := regs |} = Some c /\
        pc c = u /\ forall r, scratch a r = false -> reg c r = regs r.
Proof.
  intros H B0 Bw Hp i s Li Ei Rf. apply reference_taker in Rf.
  apply slots_spec in H as [[-> H]|(t & -> & Em & Ec & H)].
  { rewrite (H i s Ei Li) in Rf. discriminate. }
  destruct (H i s Ei Li Rf) as (u & R1 & R2 & R3 & R4).
  set (k := ntakers (firstn (i - 1) (tl syms))) in *.
  assert (Hk : Z.of_nat k < j_cur t).
  { unfold j_cur, zlen. apply Nat2Z.inj_lt. apply nth_error_Some. congruence. }
  assert (Hs : 16 <= jt_entry_size a <= 24) by (destruct a; cbn; lia).
  assert (Hn : 0 <= count_undefined syms) by apply zlen_nonneg.
  assert (Ev : u64 (base + JT_HDR + Z.of_nat k * jt_entry_size a)
               = base + JT_HDR + Z.of_nat k * jt_entry_size a).
  { unfold JT_HDR. apply u64_small. nia. }
  rewrite Ev in R4. exists u, t. eexists. split; [exact R1|]. split; [exact R2|].
  split; [reflexivity|]. split; [exact R4|]. cbn [set_value_size y_size y_value].
  split; [reflexivity|]. rewrite (jt_bytes_len a pad t Hp Ec). unfold jt_size, JT_HDR in *.
  split; [nia|]. split; [nia|].
  intros m regs Ca Hm. pose proof (slot_bytes a pad t m base k u Hp R3 Hm) as Sb.
  unfold JT_HDR in Sb.
  destruct (slot_runs a m pad u {| pc := base + 16 + Z.of_nat k * jt_entry_size a;
                                   reg := regs |} Hp) as (c & S1 & S2 & S3);
    cbn [pc]; [nia|nia|exact Ca|exact Sb|].
  exists (nsteps a), c. auto.
Qed.
Print Assumptions C34_slot_reaches_target.

(** No two references share a slot. *)
Theorem C34_slots_do_not_overlap a elf base load resolve shdrs syms shdrs' syms' t' :
  kpatch_resolve a elf base load resolve shdrs (make_table syms) syms = ROk (shdrs', syms', t') ->
  0 <= base -> base + 16 + 24 * count_undefined syms + 24 < 2 ^ 64 ->
  forall i j s1 s2 s1' s2', (1 <= i)%nat -> (1 <= j)%nat -> i <> j ->
    nth_error syms i = Some s1 -> nth_error syms j = Some s2 ->
    is_reference s1 -> is_reference s2 ->
    nth_error syms' i = Some s1' -> nth_error syms' j = Some s2' ->
    y_value s1' + jt_entry_size a <= y_value s2' \/ y_value s2' + jt_entry_size a <= y_value s1'.
Proof.
  intros H B0 Bw i j s1 s2 s1' s2' Li Lj N Ei Ej T1 T2 Ei' Ej'.
  apply reference_taker in T1. apply reference_taker in T2.
  apply slots_spec in H as [[-> H]|(t & -> & Em & Ec & H)].
  { rewrite (H i s1 Ei Li) in T1. discriminate. }
  destruct (H i s1 Ei Li T1) as (u1 & _ & _ & A1 & R1).
  destruct (H j s2 Ej Lj T2) as (u2 & _ & _ & A2 & R2).
  set (k1 := ntakers (firstn (i - 1) (tl syms))) in *.
  set (k2 := ntakers (firstn (j - 1) (tl syms))) in *.
  assert (Nk : k1 <> k2).
  { intros E. apply N. destruct syms as [|s0 ss]; [destruct i; discriminate|].
    destruct i as [|i]; [lia|]. destruct j as [|j]; [lia|]. cbn [nth_error tl] in *.
    f_equal. unfold k1, k2 in E. replace (S i - 1)%nat with i in E by lia.
    replace (S j - 1)%nat with j in E by lia.
    exact (ntakers_firstn ss i s1 j s2 Ei Ej T1 T2 E). }
  assert (H1 : Z.of_nat k1 < j_cur t).
  { unfold j_cur, zlen. apply Nat2Z.inj_lt. apply nth_error_Some. congruence. }
  assert (H2 : Z.of_nat k2 < j_cur t).
  { unfold j_cur, zlen. apply Nat2Z.inj_lt. apply nth_error_Some. congruence. }
  assert (Hs : 16 <= jt_entry_size a <= 24) by (destruct a; cbn; lia).
  rewrite R1 in Ei'. rewrite R2 in Ej'. apply some_inj in Ei'. apply some_inj in Ej'. subst.
  cbn [set_value_size y_value]. unfold JT_HDR. rewrite !u64_small by nia. nia.
Qed.
Print Assumptions C34_slots_do_not_overlap.

(** The table never takes more entries than it was allocated for, and what is
    written to the patient is exactly the allocated size. *)
Theorem C34_table_not_overrun a elf base load resolve shdrs syms shdrs' syms' t pad :
  kpatch_resolve a elf base load resolve shdrs (make_table syms) syms
    = ROk (shdrs', syms', Some t) ->
  zlen pad = 4 ->
  j_cur t <= count_undefined syms /\
  zlen (jt_bytes a pad t) = 16 + count_undefined syms * jt_entry_size a.
Proof.
  intros H Hp. apply slots_spec in H as [[E _]|(t0 & E & Em & Ec & _)]; [discriminate|].
  apply some_inj in E. subst t0. rewrite <- Em. split; [exact Ec|].
  rewrite (jt_bytes_len a pad t Hp Ec). reflexivity.
Qed.
Print Assumptions C34_table_not_overrun.

(** There is always room: when every reference resolves and the other symbols are of
    a supported kind, resolution succeeds. *)
Theorem C34_room_for_all a elf base load resolve h0 hs s0 ss :
  existsb (fun h => h_type h =? SHT_SYMTAB) hs = true ->
  0 <= base -> base + 16 + 24 * count_undefined (s0 :: ss) < 2 ^ 64 ->
  (forall s, In s ss -> is_reference s -> exists u, resolve (y_name s) = ROk u /\ u <> 0) ->
  (forall s, In s ss -> ~ is_reference s -> y_type s = 6 \/
     ((y_type s = 0 \/ y_type s = 1 \/ y_type s = 2 \/ y_type s = 3) /\
      0 <= y_shndx s < zlen (h0 :: hs))) ->
  exists r, kpatch_resolve a elf base load resolve (h0 :: hs) (make_table (s0 :: ss)) (s0 :: ss)
            = ROk r.
Proof.
  intros Sy B0 Bw HT HN. unfold kpatch_resolve. rewrite Sy.
  assert (Sup : forall s, In s ss -> taker s = false ->
     y_type s = STT_TLS \/
     ((y_type s = STT_SECTION \/ y_type s = STT_NOTYPE \/ y_type s = STT_FUNC
       \/ y_type s = STT_OBJECT) /\
      exists h, nth_error (h0 :: map (place_section elf load) hs) (Z.to_nat (y_shndx s)) = Some h)).
  { intros s Hs T. destruct (HN s Hs) as [E|[E R]].
    - rewrite reference_taker, T. discriminate.
    - left. exact E.
    - right. split; [unfold STT_SECTION, STT_NOTYPE, STT_FUNC, STT_OBJECT; tauto|].
      destruct (nth_error (h0 :: map (place_section elf load) hs) (Z.to_nat (y_shndx s)))
        as [h|] eqn:Eh; [eauto|].
      apply nth_error_None in Eh. unfold zlen in R. cbn [length] in *. rewrite map_length in Eh.
      lia. }
  assert (Rt : forall s, In s ss -> taker s = true ->
                 exists u, resolve (y_name s) = ROk u /\ u <> 0).
  { intros s Hs T. apply HT; [exact Hs|]. apply reference_taker, T. }
  pose proof (ntakers_le ss) as NL.
  unfold make_table. destruct (count_undefined (s0 :: ss) =? 0) eqn:C.
  - assert (No : forall s, In s ss -> taker s = false).
    { intros s Hs. destruct (taker s) eqn:T; [|reflexivity]. exfalso.
      assert (In s (filter taker ss)) by (apply filter_In; auto).
      unfold count_undefined in C. cbn [tl] in C. unfold zlen in C. unfold ntakers in NL.
      destruct (filter taker ss); [contradiction|]. cbn [length] in NL. lia. }
    assert (G : exists r, resolve_symbols a base resolve (h0 :: map (place_section elf load) hs)
                            None ss = ROk r).
    { clear - Sup No. induction ss as [|s ss IH]; cbn [resolve_symbols]; [eexists; reflexivity|].
      assert (T : taker s = false) by (apply No; left; reflexivity).
      assert (E : exists s', symbol_resolve a base resolve
                 (h0 :: map (place_section elf load) hs) None s = ROk (s', None)).
      { destruct (Sup s (or_introl eq_refl) T) as [E|[E [h Eh]]].
        - unfold symbol_resolve. rewrite E. eexists; reflexivity.
        - unfold symbol_resolve, sh_addr_of. rewrite Eh. unfold taker in T.
          destruct E as [E|[E|E]].
          + rewrite E. eexists; reflexivity.
          + rewrite E. eexists; reflexivity.
          + destruct (wants_slot s).
            * exfalso. rewrite Bool.andb_true_r in T. apply Bool.orb_false_iff in T as [T1 T2].
              apply Z.eqb_neq in T1. apply Z.eqb_neq in T2. tauto.
            * destruct E as [E|E]; rewrite E; eexists; reflexivity. }
      destruct E as [s' E]. rewrite E.
      destruct IH as [[r1 t1] Er].
      - intros; apply Sup; cbn; auto.
      - intros; apply No; cbn; auto.
      - rewrite Er. eexists; reflexivity. }
    destruct G as [[r1 t1] G]. rewrite G. eexists; reflexivity.
  - destruct (resolve_symbols_total a base resolve (h0 :: map (place_section elf load) hs) ss
               (new_jmp_table (count_undefined (s0 :: ss)))) as [[r1 t1] E]; auto.
    + unfold JT_HDR. cbn [new_jmp_table j_max].
      assert (Hs : 16 <= jt_entry_size a <= 24) by (destruct a; cbn; lia).
      assert (0 <= count_undefined (s0 :: ss)) by apply zlen_nonneg. nia.
    + unfold j_cur. cbn [new_jmp_table j_addrs j_max]. change (zlen []) with 0.
      unfold count_undefined, zlen. cbn [tl]. lia.
    + rewrite E. eexists; reflexivity.
Qed.
Print Assumptions C34_room_for_all.

(** A patch calling printf and puts, and using its own function. *)
Definition ex_hdr (ty off : Z) : shdr :=
  {| h_name := []; h_type := ty; h_addr := 0; h_offset := off; h_size := 64; h_info := 0;
     h_relas := [] |}.
Definition ex_shdrs : list shdr := [ex_hdr 0 0; ex_hdr 1 64; ex_hdr 2 256].
Definition ex_sym (nm : list Z) (v sh ty b : Z) : sym :=
  {| y_name := nm; y_value := v; y_size := 8; y_shndx := sh; y_type := ty; y_bind := b |}.
Definition ex_syms : list sym :=
  [ex_sym [] 0 0 0 0; ex_sym [112;117;116;115] 0 0 2 1; ex_sym [102] 16 1 2 0;
   ex_sym [112;114;105;110;116;102] 0 0 2 1].
Definition ex_resolve (nm : list Z) : res Z :=
  ROk (match nm with [112;117;116;115] => 0x7f0000001230 | _ => 0x7f0000004560 end).
Definition ex_base := 0x5550000001f8.

(** The symbols' values, and where running the second slot leads. *)
Definition slots_run (a : arch) : option (list Z * option (Z * Z)) :=
  match kpatch_resolve a 0x555000001000 ex_base 0 ex_resolve ex_shdrs (make_table ex_syms) ex_syms
  with
  | ROk (_, syms', Some t) =>
      Some (map y_value syms',
        match steps (cpu_step a (mset (fun _ => None) ex_base (jt_bytes a [1;2;3;4] t)))
                (nsteps a) {| pc := ex_base + 16 + jt_entry_size a; reg := fun _ => 7 |} with
        | Some c => Some (pc c, reg c 1)
        | None => None
        end)
  | _ => None
  end.
Definition slots_want (a : arch) :=
  Some ([0; ex_base + 16; 0x555000001000 + 64 + 16; ex_base + 16 + jt_entry_size a],
        Some (0x7f0000004560, 7)).
Example C34_example : map slots_run [X86; A64; RV; LA] = map slots_want [X86; A64; RV; LA].
Proof. vm_compute. reflexivity. Qed.

(** A weak reference to a function that a library does export gets no slot: its value
    is left 0. *)
Theorem C34_weak_function_refuted : exists resolve shdrs syms s,
  nth_error syms 1 = Some s /\ y_type s = 2 /\ y_shndx s = 0 /\ y_bind s = 2 /\
  resolve (y_name s) = ROk 0x7f0000001230 /\
  match kpatch_resolve X86 0x555000001000 ex_base 0 resolve shdrs (make_table syms) syms with
  | ROk (_, syms', t) => t = None /\ exists s', nth_error syms' 1 = Some s' /\ y_value s' = 0
  | _ => False
  end.
Proof.
  exists ex_resolve, ex_shdrs, [ex_sym [] 0 0 0 0; ex_sym [112;117;116;115] 0 0 2 2],
    (ex_sym [112;117;116;115] 0 0 2 2).
  do 5 (split; [reflexivity|]). vm_compute. split; [reflexivity|].
  eexists; split; reflexivity.
Qed.
Print Assumptions C34_weak_function_refuted.

(** ** C74: the patch's own symbols *)

(** Symbols that are not references get the address of their section in the patient
    (plus their offset in it); their other fields stay.  Sections with content go
    where the patch is written; .bss-like sections keep the address recorded in the
    patch plus the load bias. *)
Theorem C74_own_symbols_follow_their_section a elf base load resolve shdrs t syms
    shdrs' syms' t' i s h :
  kpatch_resolve a elf base load resolve shdrs t syms = ROk (shdrs', syms', t') ->
  (1 <= i)%nat -> nth_error syms i = Some s -> ~ is_reference s ->
  0 < y_shndx s -> nth_error shdrs (Z.to_nat (y_shndx s)) = Some h ->
  let place := if h_type h =? 8 then if h_addr h =? 0 then 0 else u64 (h_addr h + load)
               else u64 (elf + h_offset h) in
  exists s', nth_error syms' i = Some s' /\
    y_name s' = y_name s /\ y_size s' = y_size s /\ y_shndx s' = y_shndx s /\
    y_type s' = y_type s /\ y_bind s' = y_bind s /\
    (y_type s = 3 -> y_value s' = place) /\
    (y_type s = 0 \/ y_type s = 1 \/ y_type s = 2 -> y_value s' = u64 (y_value s + place)) /\
    (y_type s = 6 -> y_value s' = y_value s) /\
    In (y_type s) [0; 1; 2; 3; 6].
Proof.
  intros H Li Ei Nr Sh Eh place.
  apply kpatch_resolve_inv in H as [(h0 & hs & -> & ->) [(-> & _)|(s0 & ss & ss' & -> & -> & H)]].
  { destruct i; discriminate. }
  destruct i as [|i]; [lia|]. cbn [nth_error] in Ei.
  assert (T : taker s = false).
  { destruct (taker s) eqn:T; [|reflexivity]. exfalso. apply Nr. apply reference_taker, T. }
  destruct (resolve_symbols_other _ _ _ _ _ _ _ _ _ _ H Ei T) as (s' & Es & R).
  exists s'. split; [exact Es|].
  assert (Ad : sh_addr_of (h0 :: map (place_section elf load) hs) (y_shndx s) = Some place).
  { unfold sh_addr_of. destruct (Z.to_nat (y_shndx s)) as [|n] eqn:En; [lia|].
    cbn [nth_error] in *. rewrite nth_error_map, Eh. cbn [option_map].
    unfold place_section, place, SHT_NOBITS. f_equal.
    destruct (h_type h =? 8); cbn [negb]; [|reflexivity].
    destruct (h_addr h =? 0) eqn:E0; [lia|reflexivity]. }
  unfold symbol_resolve in R. rewrite Ad in R.
  assert (Nw : ((y_type s =? STT_FUNC) || (y_type s =? STT_OBJECT)) = true -> wants_slot s = false).
  { unfold taker in T. intros E. rewrite E in T. exact T. }
  unfold STT_SECTION, STT_FUNC, STT_OBJECT, STT_TLS, STT_NOTYPE in *.
  destruct (Z.eqb_spec (y_type s) 3) as [E3|N3].
  { assert (s' = set_value s place) by congruence. subst s'. cbn [set_value y_name y_size y_shndx y_type y_bind y_value].
    repeat (split; [first [reflexivity | intros; lia]|]). rewrite E3. cbn. tauto. }
  destruct ((y_type s =? 2) || (y_type s =? 1)) eqn:E12.
  { rewrite (Nw eq_refl) in R. assert (s' = set_value s (u64 (y_value s + place))) by congruence.
    subst s'. cbn [set_value y_name y_size y_shndx y_type y_bind y_value].
    repeat (split; [first [reflexivity | intros; lia]|]).
    apply Bool.orb_prop in E12. destruct E12 as [E|E]; apply Z.eqb_eq in E; rewrite E; cbn; tauto. }
  destruct (Z.eqb_spec (y_type s) 6) as [E6|N6].
  { assert (s' = s) by congruence. subst s'.
    repeat (split; [first [reflexivity | intros; lia]|]). rewrite E6. cbn. tauto. }
  destruct (Z.eqb_spec (y_type s) 0) as [E0|N0]; [|discriminate].
  assert (s' = set_value s (u64 (y_value s + place))) by congruence.
  subst s'. cbn [set_value y_name y_size y_shndx y_type y_bind y_value].
  repeat (split; [first [reflexivity | intros; lia]|]). rewrite E0. cbn. tauto.
Qed.
Print Assumptions C74_own_symbols_follow_their_section.

Example C74_example :
  match kpatch_resolve X86 0x555000001000 ex_base 0x400000 ex_resolve
          [ex_hdr 0 0; ex_hdr 1 64; ex_hdr 2 256;
           {| h_name := []; h_type := 8; h_addr := 0x4040; h_offset := 0; h_size := 8;
              h_info := 0; h_relas := [] |}]
          None [ex_sym [] 0 0 0 0; ex_sym [102] 16 1 2 0; ex_sym [98] 4 3 1 0; ex_sym [] 0 1 3 0]
  with
  | ROk (_, syms', _) => map y_value syms' = [0; 0x555000001050; 0x404044; 0x555000001040]
  | _ => False
  end.
Proof. vm_compute. reflexivity. Qed.

(** Every undefined symbol is resolved or the patch is refused: false for untyped
    ones, which silently become address 0. *)
Theorem C74_undefined_untyped_accepted_refuted : exists resolve shdrs syms s,
  nth_error syms 1 = Some s /\ y_type s = 0 /\ y_shndx s = 0 /\ y_bind s = 1 /\
  resolve (y_name s) = ROk 0 /\
  match kpatch_resolve X86 0x555000001000 ex_base 0 resolve shdrs (make_table syms) syms with
  | ROk (_, syms', _) => exists s', nth_error syms' 1 = Some s' /\ y_value s' = 0
  | _ => False
  end.
Proof.
  exists (fun _ => ROk 0), ex_shdrs, [ex_sym [] 0 0 0 0; ex_sym [120] 0 0 0 1],
    (ex_sym [120] 0 0 0 1).
  do 5 (split; [reflexivity|]). vm_compute. eexists; split; reflexivity.
Qed.
Print Assumptions C74_undefined_untyped_accepted_refuted.

(** ** C35 *)

(** A name (up to an '@') resolves to the definition of the first shared library, in
    the order of the process's objects, whose table has it; 0 if there is none.  A
    library whose table cannot be read counts as exporting nothing. *)
Theorem C35_first_exporter_partial qs ifunc libs tabs sname name :
  qsort_ok qs -> Forall2 (lib_table qs) libs tabs ->
  ~ In 64 name -> (sname = name \/ exists version, sname = name ++ 64 :: version) ->
  str_ok name ->
  exists a, resolve_undefined ifunc libs sname = ROk a /\
  ((exists n o tab ty v, nth_error libs n = Some o /\ nth_error tabs n = Some tab /\
      l_shared o = true /\ exports (fst tab) (snd tab) name ty v /\
      a = (if ty =? 10 then match ifunc (vaddr2addr (l_vmas o) v) with
                            | Some r => r | None => 0 end
           else vaddr2addr (l_vmas o) v) /\
      forall k o' tab' ty' v', (k < n)%nat -> nth_error libs k = Some o' ->
        nth_error tabs k = Some tab' -> l_shared o' = true ->
        ~ exports (fst tab') (snd tab') name ty' v')
   \/ (a = 0 /\ forall k o' tab' ty' v', nth_error libs k = Some o' ->
         nth_error tabs k = Some tab' -> l_shared o' = true ->
         ~ exports (fst tab') (snd tab') name ty' v')).
Proof.
  intros Q F N64 Sn Ok. unfold resolve_undefined.
  assert (Ec : cut_at sname = name).
  { assert (G : forall n r, ~ In 64 n -> cut_at (n ++ r) = n ++ cut_at r).
    { induction n as [|c n IH]; intros r Nn; [reflexivity|]. cbn [app cut_at].
      destruct (Z.eqb_spec c 64) as [->|Nc]; [exfalso; apply Nn; left; reflexivity|].
      rewrite IH; [reflexivity|]. intros Hn. apply Nn. right. exact Hn. }
    destruct Sn as [->|[v ->]].
    - rewrite <- (app_nil_r name) at 1. rewrite (G name [] N64). apply app_nil_r.
    - rewrite (G name _ N64). cbn [cut_at]. rewrite Z.eqb_refl. apply app_nil_r. }
  rewrite Ec. pose proof (resolve_loop_spec qs ifunc libs tabs name Q F Ok) as R.
  destruct (resolve_loop ifunc libs name) as [a| |]; [|destruct R|destruct R].
  exists a. split; [reflexivity|]. exact R.
Qed.
Print Assumptions C35_first_exporter_partial.

(** One library: what its table in memory says is what a lookup returns. *)
Theorem C35_lookup_in_table qs riscv m load phs syms strs p ds symtab name :
  qsort_ok qs -> dyn_table riscv m load phs syms strs p ds symtab -> str_ok name ->
  match resolve_single (load_dynsym qs riscv m load phs) name with
  | ROk (ty, v) => exports syms strs name ty v
  | RErr => forall ty v, ~ exports syms strs name ty v
  | RUndef => False
  end.
Proof. exact (single_spec qs riscv m load phs syms strs p ds symtab name). Qed.
Print Assumptions C35_lookup_in_table.

(** A library at 0x10000 with three symbols: an undefined one, "ab" and "c". *)
Definition ex_raw (nm info sh v : Z) : rawsym :=
  {| w_name := nm; w_info := info; w_other := 0; w_shndx := sh; w_value := v; w_size := 4 |}.
Definition ex_raws : list rawsym :=
  [ex_raw 0 0 0 0; ex_raw 4 0x12 5 0x200; ex_raw 1 0x12 5 0x100].
Definition ex_strs : list Z := [0; 97; 98; 0; 99; 0].
Definition ex_dyn : list (Z * Z) :=
  [(5, 0x10100 + 72); (6, 0x10100); (10, 6); (11, 24); (0, 0)].
Definition ex_dynph : phdr :=
  {| p_type := 2; p_flags := 6; p_offset := 0x400; p_vaddr := 0x400; p_filesz := 80;
     p_memsz := 80 |}.
Definition ex_load : phdr :=
  {| p_type := 1; p_flags := 5; p_offset := 0; p_vaddr := 0; p_filesz := 0x1000;
     p_memsz := 0x1000 |}.
Definition ex_mem : mem :=
  mset (mset (fun _ => None) 0x10400 (flat_map enc_dyn ex_dyn))
    0x10100 (flat_map enc_sym ex_raws ++ ex_strs).

Lemma holds_mset m a bs : holds (mset m a bs) a bs.
Proof.
  intros i b E. assert (L : (i < length bs)%nat) by (apply nth_error_Some; congruence).
  rewrite mset_in by (unfold in_range, zlen; lia).
  replace (Z.to_nat (a + Z.of_nat i - a)) with i by lia. f_equal. apply nth_error_nth, E.
Qed.
Lemma holds_mset_other m a bs b xs : holds m b xs ->
  b + zlen xs <= a \/ a + zlen bs <= b -> holds (mset m a bs) b xs.
Proof.
  intros H D i x E. assert (L : (i < length xs)%nat) by (apply nth_error_Some; congruence).
  rewrite mset_out; [apply H, E|]. unfold in_range, zlen in *. lia.
Qed.

Example C35_table_example :
  dyn_table false ex_mem 0x10000 [ex_load; ex_dynph] ex_raws ex_strs ex_dynph ex_dyn 0x10100.
Proof.
  constructor.
  - exists [ex_load], []. split; [reflexivity|]. constructor; [discriminate|constructor].
  - reflexivity.
  - reflexivity.
  - cbn. lia.
  - intros t v H. cbn in H. repeat (destruct H as [H|H]; [injection H as <- <-; lia|]). destruct H.
  - apply holds_mset_other; [apply holds_mset|]. vm_compute. right. discriminate.
  - intros v. split.
    + intros H. cbn in H. repeat (destruct H as [H|H]; [injection H; intros; subst; try discriminate; reflexivity || lia|]). destruct H.
    + intros ->. cbn. tauto.
  - intros v. split.
    + intros H. cbn in H. repeat (destruct H as [H|H]; [injection H; intros; subst; try discriminate; reflexivity || lia|]). destruct H.
    + intros ->. cbn. tauto.
  - intros v. split.
    + intros H. cbn in H. repeat (destruct H as [H|H]; [injection H; intros; subst; try discriminate; reflexivity || lia|]). destruct H.
    + intros ->. cbn. tauto.
  - intros v H. cbn in H. repeat (destruct H as [H|H]; [injection H; intros; subst; try discriminate; reflexivity || lia|]). destruct H.
  - cbn. lia.
  - apply holds_mset.
  - repeat (apply Forall_cons; [repeat split; cbn; lia|]). apply Forall_nil.
  - unfold bytes_ok, ex_strs. repeat (apply Forall_cons; [unfold byte_ok; lia|]). apply Forall_nil.
  - apply Forall_cons; [|apply Forall_cons; [|apply Forall_cons; [|apply Forall_nil]]].
    + split; [cbn; lia|]. intros [H _]. cbn in H. lia.
    + split; [cbn; lia|]. intros _. exists [99]. split; [repeat constructor|].
      exists [0; 97; 98; 0], []. split; reflexivity.
    + split; [cbn; lia|]. intros _. exists [97; 98].
      split; [repeat constructor|]. exists [0], [99; 0]. split; reflexivity.
Qed.

Definition ex_vma : ovma :=
  {| v_mem := {| a_start := 0x10000; a_end := 0x11000; a_prot := 5 |};
     v_elf := {| a_start := 0; a_end := 0x1000; a_prot := 0 |}; v_disk := area0 |}.
Definition ex_lib : lib :=
  {| l_shared := true; l_syms := load_dynsym isort false ex_mem 0x10000 [ex_load; ex_dynph];
     l_vmas := [ex_vma] |}.
Definition ex_exe : lib := {| l_shared := false; l_syms := RErr; l_vmas := [] |}.

Example C35_example_hypotheses : qsort_ok isort /\
  Forall2 (lib_table isort) [ex_exe; ex_lib] [([], []); (ex_raws, ex_strs)].
Proof.
  split; [exact isort_ok|].
  constructor; [right; split; reflexivity|]. constructor; [|constructor].
  left. exists false, ex_mem, 0x10000, [ex_load; ex_dynph], ex_dynph, ex_dyn, 0x10100.
  split; [exact C35_table_example|reflexivity].
Qed.
(** "c@@V1" is found, "zz" is not. *)
Example C35_example :
  resolve_undefined (fun _ => None) [ex_exe; ex_lib] [99; 64; 64; 86; 49] = ROk 0x10200 /\
  resolve_undefined (fun _ => None) [ex_exe; ex_lib] [97; 98] = ROk 0x10100 /\
  resolve_undefined (fun _ => None) [ex_exe; ex_lib] [122; 122] = ROk 0.
Proof. repeat split; vm_compute; reflexivity. Qed.

(** When another section lies between the symbol and the string table, its bytes are
    taken for symbols: a name nobody exports resolves. *)
Definition gap_dyn : list (Z * Z) :=
  [(5, 0x10100 + 96); (6, 0x10100); (10, 6); (11, 24); (0, 0)].
Definition gap_mem : mem :=
  mset (mset (fun _ => None) 0x10400 (flat_map enc_dyn gap_dyn))
    0x10100 (flat_map enc_sym [ex_raw 0 0 0 0; ex_raw 4 0x12 5 0x200; ex_raw 4 0x12 5 0x200]
             ++ (le_bytes 4 1 ++ [0; 0; 2; 0] ++ le_bytes 8 0x33 ++ le_bytes 8 7) ++ ex_strs).
Theorem C35_gap_between_tables_refuted : exists m load phs syms strs gap name,
  holds m 0x10100 (flat_map enc_sym syms ++ gap ++ strs) /\
  (* DT_SYMTAB, DT_STRTAB, DT_STRSZ and DT_SYMENT describe exactly these tables *)
  holds m 0x10400 (flat_map enc_dyn [(5, 0x10100 + 24 * zlen syms + zlen gap);
                                     (6, 0x10100); (10, zlen strs); (11, 24); (0, 0)]) /\
  phs = [ex_load; ex_dynph] /\ load = 0x10000 /\
  (forall ty v, ~ exports syms strs name ty v) /\
  resolve_single (load_dynsym isort false m load phs) name = ROk (0, 0x33).
Proof.
  exists gap_mem, 0x10000, [ex_load; ex_dynph],
    [ex_raw 0 0 0 0; ex_raw 4 0x12 5 0x200; ex_raw 4 0x12 5 0x200], ex_strs,
    (le_bytes 4 1 ++ [0; 0; 2; 0] ++ le_bytes 8 0x33 ++ le_bytes 8 7), [97; 98].
  split; [apply holds_mset|]. split.
  { apply holds_mset_other; [exact (holds_mset _ 0x10400 (flat_map enc_dyn gap_dyn))|].
    vm_compute. right. discriminate. }
  split; [reflexivity|]. split; [reflexivity|]. split; [|vm_compute; reflexivity].
  intros ty v (s & Hs & Df & (_ & pre & post & E & L) & _).
  cbn in Hs. destruct Hs as [<-|[<-|[<-|[]]]].
  - unfold raw_defined in Df. cbn in Df. lia.
  - cbn in L. unfold zlen in L. assert (L4 : length pre = 4%nat) by lia.
    assert (LE : length ex_strs = length (pre ++ [97; 98] ++ 0 :: post)) by congruence.
    rewrite app_length, L4 in LE. cbn in LE. lia.
  - cbn in L. unfold zlen in L. assert (L4 : length pre = 4%nat) by lia.
    assert (LE : length ex_strs = length (pre ++ [97; 98] ++ 0 :: post)) by congruence.
    rewrite app_length, L4 in LE. cbn in LE. lia.
Qed.
Print Assumptions C35_gap_between_tables_refuted.

(** A library whose symbol table cannot be read is passed over silently: the name
    resolves to a later library's definition although the first one exports it. *)
Theorem C35_unreadable_library_refuted :
  exists m load (syms : list rawsym) strs name o,
    (* the first library's tables are in memory, and export the name ... *)
    holds m 0x10100 (flat_map enc_sym syms ++ strs) /\
    exports syms strs name 2 0x100 /\
    (* ... but one byte of its dynamic section is not readable *)
    o = {| l_shared := true; l_syms := load_dynsym isort false m load [ex_load; ex_dynph];
           l_vmas := [ex_vma] |} /\
    resolve_undefined (fun _ => None)
      [o; {| l_shared := true; l_syms := l_syms ex_lib; l_vmas :=
             [{| v_mem := {| a_start := 0x50000; a_end := 0x51000; a_prot := 5 |};
                 v_elf := {| a_start := 0; a_end := 0x1000; a_prot := 0 |};
                 v_disk := area0 |}] |}] name = ROk 0x50100.
Proof.
  exists (mset (fun _ => None) 0x10100 (flat_map enc_sym ex_raws ++ ex_strs)), 0x10000,
    ex_raws, ex_strs, [97; 98]. eexists.
  split; [apply holds_mset|]. split.
  { exists (ex_raw 1 0x12 5 0x100). split; [cbn; tauto|]. split; [unfold raw_defined; cbn; lia|].
    split; [|split; reflexivity]. split; [repeat constructor|].
    exists [0], [99; 0]. split; reflexivity. }
  split; [reflexivity|]. vm_compute. reflexivity.
Qed.
Print Assumptions C35_unreadable_library_refuted.

(** ** C36 *)

(** A successful matching: each accessible mapping is the pages of a piece of the
    object and remembers the piece's addresses; the load bias is the distance from the
    lowest segment's page to the first mapping. *)
Theorem C36_mappings_matched qs pg start phs vs load vs' :
  qsort_ok qs -> page_ok pg -> regular phs -> Forall fresh_vma vs ->
  (exists l, In l phs /\ p_type l = 1) ->
  parse_program_header qs pg start phs vs = (0, Some load, vs') ->
  (exists l, In l phs /\ p_type l = 1 /\
     (forall q, In q phs -> p_type q = 1 -> p_vaddr l <= p_vaddr q) /\
     load = (start - p_vaddr l / pg * pg) mod 2 ^ 64) /\
  Forall2 (placed pg load phs) vs vs'.
Proof. exact (parse_spec qs pg start phs vs load vs'). Qed.
Print Assumptions C36_mappings_matched.

(** Translation: an address inside a matched segment gives the address plus the load
    bias; an address in no matched segment gives 0. *)
Theorem C36_translation qs pg start phs vs load vs' v :
  qsort_ok qs -> page_ok pg -> regular phs -> Forall fresh_vma vs ->
  (exists l, In l phs /\ p_type l = 1) ->
  parse_program_header qs pg start phs vs = (0, Some load, vs') -> v <> 0 ->
  ((exists o, In o vs' /\ a_start (v_elf o) <= v < a_end (v_elf o)) ->
     vaddr2addr vs' v = (v + load) mod 2 ^ 64 /\
     exists g, piece phs g /\ g_vaddr g <= v < g_vaddr g + g_memsz g) /\
  ((forall o, In o vs' -> ~ (a_start (v_elf o) <= v < a_end (v_elf o))) ->
     vaddr2addr vs' v = 0).
Proof.
  intros Q Pg Rg Fr Hl H N. destruct (parse_spec _ _ _ _ _ _ _ Q Pg Rg Fr Hl H) as [_ P].
  exact (vaddr2addr_spec pg load phs vs vs' v Fr P N).
Qed.
Print Assumptions C36_translation.

(** An object mapped as its program headers say is accepted. *)
Theorem C36_regular_object_accepted qs pg start phs vs l :
  qsort_ok qs -> page_ok pg -> regular phs -> Forall fresh_vma vs ->
  In l phs -> p_type l = 1 -> (forall q, In q phs -> p_type q = 1 -> p_vaddr l <= p_vaddr q) ->
  p_vaddr l < 2 ^ 64 - 1 ->
  Forall (fun v => a_prot (v_mem v) = 0 \/ exists g, piece phs g /\
            is_mapping_of pg ((start - p_vaddr l / pg * pg) mod 2 ^ 64) g (v_mem v)) vs ->
  exists vs', parse_program_header qs pg start phs vs
              = (0, Some ((start - p_vaddr l / pg * pg) mod 2 ^ 64), vs').
Proof. exact (parse_total qs pg start phs vs l). Qed.
Print Assumptions C36_regular_object_accepted.

Definition mk_ph (ty fl vaddr filesz memsz : Z) : phdr :=
  {| p_type := ty; p_flags := fl; p_offset := vaddr; p_vaddr := vaddr; p_filesz := filesz;
     p_memsz := memsz |}.
Definition mk_vma (s e prot : Z) : ovma :=
  {| v_mem := {| a_start := s; a_end := e; a_prot := prot |}; v_elf := area0; v_disk := area0 |}.
(** Code, then data whose first 0x200 bytes are RELRO, and a hole. *)
Definition seg_phs : list phdr :=
  [mk_ph 1 5 0 0x1000 0x1000; mk_ph 1 6 0x2e00 0x300 0x400; mk_ph 0x6474e552 4 0x2e00 0x200 0x200].
Definition seg_vmas : list ovma :=
  [mk_vma 0x7f0000000000 0x7f0000001000 5; mk_vma 0x7f0000001000 0x7f0000002000 0;
   mk_vma 0x7f0000002000 0x7f0000003000 1; mk_vma 0x7f0000003000 0x7f0000004000 3].

Example C36_example_hypotheses : regular seg_phs /\ Forall fresh_vma seg_vmas /\ page_ok 4096.
Proof.
  split; [|split].
  - split; [|split; [|split]].
    + repeat (apply Forall_cons; [cbn; lia|]). apply Forall_nil.
    + repeat first [apply FOP_nil | apply FOP_cons];
        repeat first [apply Forall_nil | apply Forall_cons; [cbn; intros; lia|]].
    + repeat first [apply FOP_nil | apply FOP_cons];
        repeat first [apply Forall_nil | apply Forall_cons; [cbn; intros; lia|]].
    + intros r [<-|[<-|[<-|[]]]] T; try discriminate T.
      exists (mk_ph 1 6 0x2e00 0x300 0x400). split; [cbn; tauto|]. cbn. lia.
  - repeat (apply Forall_cons; [unfold fresh_vma; cbn; lia|]). apply Forall_nil.
  - exists 12. split; [lia|reflexivity].
Qed.
Example C36_example :
  match parse_program_header isort 4096 0x7f0000000000 seg_phs seg_vmas with
  | (rv, load, vs') =>
      rv = 0 /\ load = Some 0x7f0000000000 /\
      map (vaddr2addr vs') [0x10; 0x1800; 0x2e10; 0x3010; 0x3200; 0]
      = [0x7f0000000010; 0; 0x7f0000002e10; 0x7f0000003010; 0; 0]
  end.
Proof. vm_compute. repeat split. Qed.

(** RELRO in the middle of a segment: success is reported, nothing is translated. *)
Theorem C36_relro_inside_segment_refuted : exists phs vs v,
  In (mk_ph 1 5 0 0x1000 0x1000) phs /\ 0 < v < 0x1000 /\
  In (mk_vma 0x7f0000000000 0x7f0000001000 5) vs /\
  match parse_program_header isort 4096 0x7f0000000000 phs vs with
  | (rv, load, vs') => rv = 0 /\ load = Some 0x7f0000000000 /\ vaddr2addr vs' v = 0
  end.
Proof.
  exists [mk_ph 1 5 0 0x1000 0x1000; mk_ph 1 6 0x2000 0x2000 0x2000;
          mk_ph 0x6474e552 4 0x2800 0x800 0x800],
    [mk_vma 0x7f0000000000 0x7f0000001000 5; mk_vma 0x7f0000002000 0x7f0000003000 1;
     mk_vma 0x7f0000003000 0x7f0000004000 3], 0x10.
  split; [cbn; tauto|]. split; [lia|]. split; [cbn; tauto|]. vm_compute. repeat split.
Qed.
Print Assumptions C36_relro_inside_segment_refuted.

(** RELRO as large as its segment: the outcome depends on the order in which qsort
    leaves equal elements; with one order nothing is translated, still success. *)
Definition rsort : sorter := fun A cmp l => isort A cmp (rev l).
Lemma rsort_ok : qsort_ok rsort.
Proof.
  intros A cmp l [H1 H2]. unfold rsort.
  assert (P : preorder_on cmp (rev l)).
  { split.
    - intros a b Ha Hb. apply H1; apply in_rev; assumption.
    - intros a b c Ha Hb Hc. apply H2; apply in_rev; assumption. }
  destruct (isort_ok A cmp (rev l) P) as [Q1 Q2]. split; [|exact Q2].
  eapply perm_trans; [apply Permutation_rev|exact Q1].
Qed.
Theorem C36_whole_segment_relro_refuted : exists phs vs v,
  qsort_ok isort /\ qsort_ok rsort /\
  (match parse_program_header isort 4096 0x7f0000000000 phs vs with
   | (rv, _, vs') => rv = 0 /\ vaddr2addr vs' v = 0x7f0000000010 end) /\
  (match parse_program_header rsort 4096 0x7f0000000000 phs vs with
   | (rv, _, vs') => rv = 0 /\ vaddr2addr vs' v = 0 end).
Proof.
  exists [mk_ph 1 5 0 0x1000 0x1000; mk_ph 1 6 0x2000 0x1000 0x1000;
          mk_ph 0x6474e552 4 0x2000 0x1000 0x1000],
    [mk_vma 0x7f0000000000 0x7f0000001000 5; mk_vma 0x7f0000002000 0x7f0000003000 1], 0x10.
  split; [exact isort_ok|]. split; [exact rsort_ok|].
  split; vm_compute; repeat split.
Qed.
Print Assumptions C36_whole_segment_relro_refuted.

(** ** C37 *)

(** The first PT_NOTE segment (of those at most 128 bytes long) that has a build-id
    note determines the answer, wherever the note is among the segment's notes,
    provided the notes before it have sizes that are multiples of 4 and the
    identifier is 20 bytes long. *)
Theorem C37_build_id_found_partial m start pre p post ns1 b ns2 :
  Forall (passed_seg m start) pre ->
  p_type p = 4 -> p_memsz p <= 128 -> seg_notes m start p (ns1 ++ b :: ns2) ->
  Forall (fun n => aligned n /\ ~ build_id_note n) ns1 ->
  build_id_note b -> zlen (nt_desc b) = 20 ->
  find_buildid m start (pre ++ p :: post) = BFound (in_hex (nt_desc b)) /\
  zlen (in_hex (nt_desc b)) = 40.
Proof.
  intros F T L S Fn B D. split; [eapply find_found; eauto|]. rewrite in_hex_len, D. reflexivity.
Qed.
Print Assumptions C37_build_id_found_partial.

(** Nothing is reported when no segment has one. *)
Theorem C37_no_build_id m start phs :
  Forall (passed_seg m start) phs -> find_buildid m start phs = BNone.
Proof. exact (find_none m start phs). Qed.
Print Assumptions C37_no_build_id.

Definition zmem : mem := fun x => if (0x10000 <=? x) && (x <? 0x11000) then Some 0 else None.
Definition note_ph (off n : Z) : phdr :=
  {| p_type := 4; p_flags := 4; p_offset := off; p_vaddr := off; p_filesz := n; p_memsz := n |}.
Definition bid (desc : list Z) : note :=
  {| nt_name := [71; 78; 85; 0]; nt_desc := desc; nt_type := 3 |}.
Definition prop_note : note :=
  {| nt_name := [71; 78; 85; 0]; nt_desc := [2;0;0;0; 4;0;0;0; 3;0;0;0; 0;0;0;0]; nt_type := 5 |}.
Definition id20 : list Z := map Z.of_nat (seq 160 20).
Definition note_mem (ns : list note) : mem := mset zmem 0x10200 (enc_notes ns).

Lemma note_seg ns : Forall note_ok ns -> zlen (enc_notes ns) <= 1000 ->
  seg_notes (note_mem ns) 0x10000 (note_ph 0x200 (zlen (enc_notes ns))) ns.
Proof.
  intros Ok L. pose proof (zlen_nonneg (enc_notes ns)).
  unfold seg_notes. cbn [note_ph p_offset p_memsz]. split; [lia|]. split; [reflexivity|].
  split; [exact Ok|]. split; [apply holds_mset|]. split.
  - apply mset_mapped. intros x Hx. unfold zmem, in_range in *.
    replace ((0x10000 <=? x) && (x <? 0x11000)) with true by lia. discriminate.
  - lia.
Qed.
Lemma bid_ok desc : forallb (fun x => (0 <=? x) && (x <? 256)) desc = true -> note_ok (bid desc).
Proof.
  intros H. split; [|split].
  - cbn. repeat (apply Forall_cons; [unfold byte_ok; lia|]). apply Forall_nil.
  - apply Forall_forall. intros x Hx. rewrite forallb_forall in H. specialize (H x Hx).
    unfold byte_ok. cbn in Hx. lia.
  - cbn. lia.
Qed.
Lemma prop_ok : note_ok prop_note.
Proof.
  split; [|split].
  - cbn. repeat (apply Forall_cons; [unfold byte_ok; lia|]). apply Forall_nil.
  - cbn. repeat (apply Forall_cons; [unfold byte_ok; lia|]). apply Forall_nil.
  - cbn. lia.
Qed.

Example C37_example : let ns := [prop_note; bid id20; prop_note] in
  let p := note_ph 0x200 (zlen (enc_notes ns)) in
  p_memsz p <= 128 /\ seg_notes (note_mem ns) 0x10000 p ns /\
  Forall (fun n => aligned n /\ ~ build_id_note n) [prop_note] /\
  build_id_note (bid id20) /\ zlen (nt_desc (bid id20)) = 20 /\
  find_buildid (note_mem ns) 0x10000 [ex_load; p] = BFound
    [97;48;97;49;97;50;97;51;97;52;97;53;97;54;97;55;97;56;97;57;97;97;97;98;97;99;97;100;97;
     101;97;102;98;48;98;49;98;50;98;51].
Proof.
  cbv zeta. split; [vm_compute; discriminate|]. split.
  { apply note_seg; [|vm_compute; discriminate].
    apply Forall_cons; [exact prop_ok|]. apply Forall_cons; [apply bid_ok; reflexivity|].
    apply Forall_cons; [exact prop_ok|apply Forall_nil]. }
  split.
  { apply Forall_cons; [|apply Forall_nil]. split; [split; reflexivity|].
    intros [_ H]. discriminate H. }
  split; [split; reflexivity|]. split; [reflexivity|]. vm_compute. reflexivity.
Qed.

(** A note of odd size before it: the build id is not seen. *)
Definition odd_note : note := {| nt_name := [71; 111; 0; 0]; nt_desc := [1;2;3;4;5]; nt_type := 4 |}.
Theorem C37_unaligned_note_refuted : exists m start p ns1 b,
  p_type p = 4 /\ p_memsz p <= 128 /\ seg_notes m start p (ns1 ++ [b]) /\
  Forall (fun n => ~ build_id_note n) ns1 /\ build_id_note b /\ zlen (nt_desc b) = 20 /\
  find_buildid m start [p] = BNone.
Proof.
  exists (note_mem [odd_note; bid id20]), 0x10000,
    (note_ph 0x200 (zlen (enc_notes [odd_note; bid id20]))), [odd_note], (bid id20).
  split; [reflexivity|]. split; [vm_compute; discriminate|]. split.
  { apply note_seg; [|vm_compute; discriminate].
    apply Forall_cons; [|apply Forall_cons; [apply bid_ok; reflexivity|apply Forall_nil]].
    split; [|split].
    - cbn. repeat (apply Forall_cons; [unfold byte_ok; lia|]). apply Forall_nil.
    - cbn. repeat (apply Forall_cons; [unfold byte_ok; lia|]). apply Forall_nil.
    - cbn. lia. }
  split. { apply Forall_cons; [|apply Forall_nil]. intros [H _]. discriminate H. }
  split; [split; reflexivity|]. split; [reflexivity|]. vm_compute. reflexivity.
Qed.
Print Assumptions C37_unaligned_note_refuted.

(** A note segment of more than 128 bytes is not looked at. *)
Theorem C37_large_segment_refuted : exists m start p b ns2,
  p_type p = 4 /\ seg_notes m start p (b :: ns2) /\ build_id_note b /\
  zlen (nt_desc b) = 20 /\ find_buildid m start [p] = BNone.
Proof.
  exists (note_mem [bid id20; prop_note; prop_note; prop_note]), 0x10000,
    (note_ph 0x200 (zlen (enc_notes [bid id20; prop_note; prop_note; prop_note]))), (bid id20),
    [prop_note; prop_note; prop_note].
  split; [reflexivity|]. split.
  { apply note_seg; [|vm_compute; discriminate].
    apply Forall_cons; [apply bid_ok; reflexivity|].
    repeat (apply Forall_cons; [exact prop_ok|]). apply Forall_nil. }
  split; [split; reflexivity|]. split; [reflexivity|]. vm_compute. reflexivity.
Qed.
Print Assumptions C37_large_segment_refuted.

(** An identifier of another length is reported as 40 digits anyway: the rest comes
    from what follows in memory. *)
Theorem C37_other_length_refuted : exists m start p b text,
  p_type p = 4 /\ seg_notes m start p [b] /\ build_id_note b /\ zlen (nt_desc b) = 16 /\
  find_buildid m start [p] = BFound text /\ text <> in_hex (nt_desc b).
Proof.
  exists (note_mem [bid (firstn 16 id20)]), 0x10000,
    (note_ph 0x200 (zlen (enc_notes [bid (firstn 16 id20)]))), (bid (firstn 16 id20)).
  eexists. split; [reflexivity|]. split.
  { apply note_seg; [|vm_compute; discriminate].
    apply Forall_cons; [apply bid_ok; reflexivity|apply Forall_nil]. }
  split; [split; reflexivity|]. split; [reflexivity|].
  split; [vm_compute; reflexivity|]. vm_compute. discriminate.
Qed.
Print Assumptions C37_other_length_refuted.

(** The note is looked for at its file offset from the first mapping, not at its
    virtual address. *)
Theorem C37_note_by_file_offset_refuted : exists m start load p b,
  p_type p = 4 /\ holds m (load + p_vaddr p) (enc_notes [b]) /\
  p_memsz p = zlen (enc_notes [b]) /\ load = start /\ build_id_note b /\
  zlen (nt_desc b) = 20 /\ find_buildid m start [p] = BNone.
Proof.
  exists (note_mem [bid id20]), 0x10000, 0x10000,
    {| p_type := 4; p_flags := 4; p_offset := 0x600; p_vaddr := 0x200; p_filesz := 36;
       p_memsz := 36 |}, (bid id20).
  split; [reflexivity|]. split; [apply holds_mset|]. split; [reflexivity|].
  split; [reflexivity|]. split; [split; reflexivity|]. split; [reflexivity|].
  vm_compute. reflexivity.
Qed.
Print Assumptions C37_note_by_file_offset_refuted.

(** ** C72: headers *)

(** The headers used are those of the object, whether taken from the patient's memory
    or from the beginning of the file. *)
Theorem C72_headers_from_memory m first h raws :
  rawehdr_ok h -> i_phnum h = zlen raws -> Forall (fun x => phdr_ok (fst x)) raws ->
  0 <= first + i_phoff h < 2 ^ 64 ->
  holds m first (enc_ehdr h) -> holds m (first + i_phoff h) (flat_map enc_phdr raws) ->
  exists o, peek_phdr m first xobj0 = (OOk, o) /\ x_start o = Some first /\
    phdrs_of o = Some (map fst raws) /\ e_type (x_ehdr o) = i_type h.
Proof.
  intros Ok N F R H1 H2. rewrite (peek_spec m first h raws Ok N F R H1 H2).
  eexists. split; [reflexivity|]. unfold phdrs_of. cbn.
  destruct Ok as (_ & _ & _ & _ & Np). replace (i_phnum h <=? 0) with false by lia. auto.
Qed.
Print Assumptions C72_headers_from_memory.

Theorem C72_headers_from_file h raws gap rest m first :
  rawehdr_ok h -> i_phnum h = zlen raws -> Forall (fun x => phdr_ok (fst x)) raws ->
  i_phoff h = 64 + zlen gap -> 64 + zlen gap + 56 * zlen raws < 2 ^ 64 ->
  exists o, set_ehdr xobj0 (enc_ehdr h ++ gap ++ flat_map enc_phdr raws ++ rest) = (OOk, o) /\
    (* and nothing is read from the patient later *)
    exists o', peek_phdr m first o = (OOk, o') /\ x_start o' = Some first /\
      phdrs_of o' = Some (map fst raws) /\ e_type (x_ehdr o') = i_type h.
Proof.
  intros Ok N F P W. rewrite (set_ehdr_spec h raws gap rest Ok N F P W).
  eexists. split; [reflexivity|]. unfold peek_phdr. cbn [x_start x_ehdr of_rawehdr e_id0 x_phdr].
  change (127 =? 127) with true. cbn [negb andb].
  eexists. split; [reflexivity|]. unfold phdrs_of. cbn.
  destruct Ok as (_ & _ & _ & _ & Np). replace (i_phnum h <=? 0) with false by lia. auto.
Qed.
Print Assumptions C72_headers_from_file.

Definition ex_rawehdr : rawehdr :=
  {| i_ident := [0x7f; 69; 76; 70; 2; 1; 1; 0; 0; 0; 0; 0; 0; 0; 0; 0]; i_type := 3;
     i_machine := 62; i_version := 1; i_entry := 0x1000; i_phoff := 64; i_shoff := 0;
     i_flags := 0; i_ehsize := 64; i_phentsize := 56; i_phnum := 2; i_shentsize := 64;
     i_shnum := 0; i_shstrndx := 0 |}.
Definition ex_rawphs : list (phdr * (Z * Z)) := [(ex_load, (0, 4096)); (ex_dynph, (0x400, 8))].
Example C72_example :
  rawehdr_ok ex_rawehdr /\ i_phnum ex_rawehdr = zlen ex_rawphs /\
  Forall (fun x => phdr_ok (fst x)) ex_rawphs /\
  let m := mset zmem 0x10000 (enc_ehdr ex_rawehdr ++ flat_map enc_phdr ex_rawphs) in
  match peek_phdr m 0x10000 xobj0 with
  | (OOk, o) => phdrs_of o = Some [ex_load; ex_dynph]
  | _ => False
  end.
Proof.
  split.
  { split; [exists [2; 1; 1; 0; 0; 0; 0; 0; 0; 0; 0; 0]; split; reflexivity|]. cbn. lia. }
  split; [reflexivity|]. split.
  { repeat (apply Forall_cons; [repeat split; cbn; lia|]). apply Forall_nil. }
  vm_compute. reflexivity.
Qed.

(** A read of the program headers that failed is forgotten: the next operation takes
    the buffer that was never filled for the headers. *)
Theorem C72_failed_read_forgotten_refuted : exists m first,
  match look_for_buildid m first xobj0 with
  | (r1, o1) => r1 = BErr /\ fst (peek_phdr m first o1) = OOk /\
                fst (look_for_buildid m first o1) = BUndef
  end.
Proof.
  exists (mset (fun _ => None) 0x10000 (enc_ehdr ex_rawehdr)), 0x10000.
  vm_compute. repeat split.
Qed.
Print Assumptions C72_failed_read_forgotten_refuted.

(** ** C73: libraries and executables *)

(** "libc", "libpthread", "libdl" followed by ".so." or "-....so". *)
Definition glibc_name (name : list Z) : Prop :=
  exists stem, In stem [[108;105;98;99]; [108;105;98;112;116;104;114;101;97;100];
                        [108;105;98;100;108]] /\
  ((exists r, name = stem ++ [46;115;111;46] ++ r) \/
   (exists r, name = stem ++ [45] ++ r /\ exists q, name = q ++ [46;115;111])).

Lemma is_prefix_spec p s : is_prefix p s = true <-> exists r, s = p ++ r.
Proof.
  unfold is_prefix. rewrite list_eqb_eq. split.
  - intros H. exists (skipn (length p) s). rewrite <- H at 1. symmetry. apply firstn_skipn.
  - intros [r ->]. rewrite firstn_app, Nat.sub_diag, firstn_all. apply app_nil_r.
Qed.
Lemma ends_so_spec s : (3 <= length s)%nat ->
  (ends_so s = true <-> exists q, s = q ++ [46;115;111]).
Proof.
  intros L. unfold ends_so. rewrite list_eqb_eq. split.
  - intros H. exists (firstn (length s - 3) s). rewrite <- H. symmetry. apply firstn_skipn.
  - intros [q ->]. rewrite app_length. cbn [length].
    replace (length q + 3 - 3)%nat with (length q) by lia.
    rewrite skipn_app, skipn_all, Nat.sub_diag. reflexivity.
Qed.

Lemma interp_exception_spec name : is_interp_exception name = true <-> glibc_name name.
Proof.
  unfold is_interp_exception, glibc_name.
  assert (E : forall stem, (4 <= length stem)%nat ->
    (is_prefix (stem ++ [46;115;111;46]) name
       || (is_prefix (stem ++ [45]) name && ends_so name) = true <->
     (exists r, name = stem ++ [46;115;111;46] ++ r) \/
     (exists r, name = stem ++ [45] ++ r /\ exists q, name = q ++ [46;115;111]))).
  { intros stem Ls. rewrite Bool.orb_true_iff, Bool.andb_true_iff, !is_prefix_spec. split.
    - intros [[r ->]|[[r E] En]].
      + left. exists r. rewrite <- app_assoc. reflexivity.
      + right. exists r. rewrite E at 1. rewrite <- app_assoc. split; [reflexivity|].
        apply ends_so_spec in En; [exact En|]. rewrite E, !app_length. lia.
    - intros [[r E]|[r [E En]]].
      + left. exists r. rewrite <- app_assoc. exact E.
      + right. split; [exists r; rewrite <- app_assoc; exact E|].
        apply ends_so_spec; [|exact En]. rewrite E, app_length. lia. }
  assert (R : is_prefix s_libc_so name || (is_prefix s_libc_ name && ends_so name)
  || is_prefix s_libpthread_so name || (is_prefix s_libpthread_ name && ends_so name)
  || is_prefix s_libdl_so name || (is_prefix s_libdl_ name && ends_so name)
  = (is_prefix ([108;105;98;99] ++ [46;115;111;46]) name
       || (is_prefix ([108;105;98;99] ++ [45]) name && ends_so name))
  || (is_prefix ([108;105;98;112;116;104;114;101;97;100] ++ [46;115;111;46]) name
       || (is_prefix ([108;105;98;112;116;104;114;101;97;100] ++ [45]) name && ends_so name))
  || (is_prefix ([108;105;98;100;108] ++ [46;115;111;46]) name
       || (is_prefix ([108;105;98;100;108] ++ [45]) name && ends_so name))).
  { cbn [app]. unfold s_libc_so, s_libc_, s_libpthread_so, s_libpthread_, s_libdl_so, s_libdl_.
    rewrite !Bool.orb_assoc. reflexivity. }
  rewrite R, !Bool.orb_true_iff. rewrite <- !Bool.orb_true_iff.
  rewrite (Bool.orb_true_iff (_ || _) (_ || _)), (Bool.orb_true_iff (_ || _) (_ || _)).
  rewrite !E by (cbn; lia). split.
  - intros [[H|H]|H].
    + exists [108;105;98;99]. split; [cbn; tauto|exact H].
    + exists [108;105;98;112;116;104;114;101;97;100]. split; [cbn; tauto|exact H].
    + exists [108;105;98;100;108]. split; [cbn; tauto|exact H].
  - intros (stem & [<-|[<-|[<-|[]]]] & H); tauto.
Qed.

(** An object counts as a shared library exactly if it is ET_DYN and either has no
    program interpreter or is one of the glibc libraries that have one. *)
Theorem C73_shared_library_test ty phs name :
  is_shared_lib ty phs name = true <->
  ty = 3 /\ ((forall p, In p phs -> p_type p <> 3) \/ glibc_name name).
Proof.
  unfold is_shared_lib, ET_DYN, PT_INTERP. rewrite <- interp_exception_spec.
  destruct (Z.eqb_spec ty 3) as [->|N]; cbn [negb].
  2:{ split; [discriminate|]. intros [E _]. contradiction. }
  rewrite Bool.negb_true_iff. split.
  - intros H. split; [reflexivity|].
    destruct (is_interp_exception name); [right; reflexivity|left].
    intros p Hp T. assert (C : existsb (fun p => (p_type p =? 3) && negb false) phs = true).
    { apply existsb_exists. exists p. rewrite T. auto. }
    congruence.
  - intros [_ H]. destruct (existsb _ phs) eqn:C; [|reflexivity].
    apply existsb_exists in C as (p & Hp & C). apply andb_prop in C as [C1 C2].
    apply Z.eqb_eq in C1. destruct H as [H|H]; [exfalso; exact (H p Hp C1)|].
    rewrite H in C2. discriminate.
Qed.
Print Assumptions C73_shared_library_test.
(** libc.so.6 and a PIE executable, both with an interpreter. *)
Example C73_example :
  is_shared_lib 3 [mk_ph 3 4 0 0 0; ex_load] [108;105;98;99;46;115;111;46;54] = true /\
  is_shared_lib 3 [mk_ph 3 4 0 0 0; ex_load] [97;46;111;117;116] = false.
Proof. split; reflexivity. Qed.

(** Another library with an interpreter (libcap, musl's libc, ...) is taken for an
    executable: its symbols are never found. *)
Theorem C73_other_library_with_interpreter_refuted : exists ty phs name,
  ty = 3 /\ (exists p, In p phs /\ p_type p = 3) /\
  (* libcap.so.2 *) name = [108;105;98;99;97;112;46;115;111;46;50] /\
  is_shared_lib ty phs name = false.
Proof.
  exists 3, [mk_ph 3 4 0 0 0; ex_load], [108;105;98;99;97;112;46;115;111;46;50].
  split; [reflexivity|]. split; [eexists; split; [left; reflexivity|reflexivity]|].
  split; reflexivity.
Qed.
Print Assumptions C73_other_library_with_interpreter_refuted.
