(** Proofs about the jump table and symbol resolution of a patch. *)
From Verif Require Import Base BaseProofs RelocModel ElfModel ElfSpec.

Lemma holds_app m a x y : holds m a (x ++ y) <-> holds m a x /\ holds m (a + zlen x) y.
Proof.
  unfold holds, zlen. split.
  - intros H. split.
    + intros i b E. apply H. rewrite nth_error_app1; [exact E|].
      apply nth_error_Some. congruence.
    + intros i b E.
      replace (a + Z.of_nat (length x) + Z.of_nat i)
        with (a + Z.of_nat (length x + i)) by lia.
      apply H. rewrite nth_error_app2 by lia.
      replace (length x + i - length x)%nat with i by lia. exact E.
  - intros [H1 H2] i b E. destruct (Nat.lt_ge_cases i (length x)) as [L|L].
    + apply H1. rewrite nth_error_app1 in E by lia. exact E.
    + rewrite nth_error_app2 in E by lia.
      specialize (H2 _ _ E). replace (a + Z.of_nat i)
        with (a + Z.of_nat (length x) + Z.of_nat (i - length x)) by lia. exact H2.
Qed.

Lemma holds_cons m a b r : holds m a (b :: r) <-> m a = Some b /\ holds m (a + 1) r.
Proof.
  change (b :: r) with ([b] ++ r). rewrite holds_app. change (zlen [b]) with 1.
  split; intros [H1 H2]; (split; [|exact H2]).
  - specialize (H1 0%nat b eq_refl). rewrite Z.add_0_r in H1. exact H1.
  - intros [|i] c E; cbn in E; [|destruct i; discriminate].
    apply some_inj in E. subst. rewrite Z.add_0_r. exact H1.
Qed.

Lemma holds_mread m a bs : holds m a bs -> mread m a (length bs) = Some bs.
Proof.
  revert a; induction bs as [|b r IH]; intros a H; cbn [mread length]; [reflexivity|].
  apply holds_cons in H as [H1 H2]. rewrite H1, (IH _ H2). reflexivity.
Qed.

Lemma holds_load m a n x : holds m a (le_bytes n x) ->
  load_val m a n = Some (x mod 256 ^ Z.of_nat n).
Proof.
  intros H. unfold load_val. apply holds_mread in H. rewrite le_bytes_length in H.
  rewrite H, le_val_bytes. reflexivity.
Qed.

Lemma le_bytes_split8 x : le_bytes 8 x = le_bytes 4 x ++ le_bytes 4 (x / 2 ^ 32).
Proof.
  assert (E : forall n k y, le_bytes (n + k) y
                            = le_bytes n y ++ le_bytes k (y / 256 ^ Z.of_nat n)).
  { induction n as [|n IH]; intros k y.
    - cbn [le_bytes app Nat.add]. rewrite Z.div_1_r. reflexivity.
    - cbn [le_bytes app Nat.add]. f_equal. rewrite IH. f_equal. f_equal.
      rewrite Z.div_div by (try lia; apply Z.pow_pos_nonneg; lia). f_equal.
      rewrite Nat2Z.inj_succ, Z.pow_succ_r by lia. reflexivity. }
  exact (E 4%nat 4%nat x).
Qed.

(** ** One slot *)

Lemma jt_entry_len a pad addr : zlen pad = 4 -> zlen (jt_entry a pad addr) = jt_entry_size a.
Proof.
  intros Hp. destruct a; unfold jt_entry; rewrite ?zlen_app, ?le_bytes_zlen, ?Hp; reflexivity.
Qed.

Definition nsteps (a : arch) : nat :=
  match a with X86 => 1%nat | A64 => 2%nat | _ => 3%nat end.

Lemma slot_runs a m pad addr s :
  zlen pad = 4 ->
  0 <= pc s -> pc s + 24 < 2 ^ 64 -> code_addr_ok a addr ->
  holds m (pc s) (jt_entry a pad addr) ->
  exists s', steps (cpu_step a m) (nsteps a) s = Some s' /\ pc s' = addr /\
    forall r, scratch a r = false -> reg s' r = reg s r.
Proof.
  intros Hp H0 H1 Ha H. destruct s as [p rg]; cbn [pc reg] in *.
  destruct Ha as [Ha Hev].
  destruct a; unfold jt_entry in H; cbn [nsteps cpu_step scratch] in *.
  - (* x86 *)
    change (le_bytes 8 0x90900000000225ff)
      with ([0xff; 0x25; 0x02; 0; 0; 0] ++ [0x90; 0x90]) in H.
    rewrite <- app_assoc in H. apply holds_app in H as [H2 H]. apply holds_app in H as [_ H].
    change (zlen [255; 37; 2; 0; 0; 0]) with 6 in H. change (zlen [144; 144]) with 2 in H.
    apply holds_mread in H2. apply holds_load in H.
    cbn [steps]. unfold x86_step. cbn [pc]. cbn [length] in H2. rewrite H2.
    cbn [Z.eqb Pos.eqb andb].
    replace (u64 (p + 6 + sext 32 (le_val [2; 0; 0; 0]))) with (p + 6 + 2).
    2:{ replace (sext 32 (le_val [2; 0; 0; 0])) with 2 by reflexivity.
        rewrite u64_small by lia. reflexivity. }
    rewrite H. eexists; split; [reflexivity|]. cbn [pc reg]. split.
    + apply Z.mod_small. change (256 ^ Z.of_nat 8) with (2 ^ 64). lia.
    + reflexivity.
  - (* aarch64 *)
    rewrite (le_bytes_split8 0xd61f022058000051), <- app_assoc in H.
    change (0xd61f022058000051 / 2 ^ 32) with 0xd61f0220 in H.
    apply holds_app in H as [H2 H]. apply holds_app in H as [H3 H].
    rewrite !le_bytes_zlen in *. change (Z.of_nat 4) with 4 in *.
    apply holds_load in H2. apply holds_load in H3. apply holds_load in H.
    cbn [steps]. unfold a64_step at 1. cbn [pc]. rewrite H2.
    change (bitsof (0xd61f022058000051 mod 256 ^ Z.of_nat 4) 31 24 =? 0x58) with true.
    cbv iota.
    replace (u64 (p + 4 * sext 19 (bitsof (0xd61f022058000051 mod 256 ^ Z.of_nat 4) 23 5)))
      with (p + 4 + 4).
    2:{ replace (sext 19 (bitsof (0xd61f022058000051 mod 256 ^ Z.of_nat 4) 23 5))
          with 2 by reflexivity. rewrite u64_small by lia. lia. }
    rewrite H. cbn [steps]. unfold a64_step. cbn [pc reg].
    rewrite (u64_small (p + 4)) by lia. rewrite H3.
    change (bitsof (0xd61f0220 mod 256 ^ Z.of_nat 4) 31 24 =? 0x58) with false.
    change (bitsof (0xd61f0220 mod 256 ^ Z.of_nat 4) 31 10 =? 0x3587c0) with true.
    change (bitsof (0xd61f0220 mod 256 ^ Z.of_nat 4) 4 0 =? 0) with true.
    cbv iota. cbn [andb]. eexists; split; [reflexivity|]. cbn [pc reg].
    change (bitsof (0xd61f022058000051 mod 256 ^ Z.of_nat 4) 4 0) with 17.
    change (bitsof (0xd61f0220 mod 256 ^ Z.of_nat 4) 9 5) with 17.
    unfold set_reg. split.
    + rewrite Z.eqb_refl. apply Z.mod_small. change (256 ^ Z.of_nat 8) with (2 ^ 64). lia.
    + intros r Hr. rewrite Hr. reflexivity.
  - (* riscv *)
    apply holds_app in H as [H2 H]. apply holds_app in H as [H3 H].
    apply holds_app in H as [H4 H]. apply holds_app in H as [_ H].
    rewrite !le_bytes_zlen, ?Hp in *. change (Z.of_nat 4) with 4 in *.
    apply holds_load in H2. apply holds_load in H3. apply holds_load in H4.
    apply holds_load in H.
    cbn [steps]. unfold rv_step at 1. cbn [pc]. rewrite H2.
    change (bitsof (0x00000f97 mod 256 ^ Z.of_nat 4) 6 0 =? 0x17) with true. cbv iota.
    change (bitsof (0x00000f97 mod 256 ^ Z.of_nat 4) 11 7) with 31.
    change (sext 32 (bitsof (0x00000f97 mod 256 ^ Z.of_nat 4) 31 12 * 2 ^ 12)) with 0.
    rewrite Z.add_0_r, (u64_small p), (u64_small (p + 4)) by lia.
    cbn [steps]. unfold rv_step at 1. cbn [pc reg]. rewrite H3.
    change (bitsof (0x010fbf83 mod 256 ^ Z.of_nat 4) 6 0 =? 0x17) with false.
    change (bitsof (0x010fbf83 mod 256 ^ Z.of_nat 4) 6 0 =? 0x03) with true.
    change (bitsof (0x010fbf83 mod 256 ^ Z.of_nat 4) 14 12 =? 3) with true.
    cbv iota. cbn [andb].
    change (bitsof (0x010fbf83 mod 256 ^ Z.of_nat 4) 11 7) with 31.
    change (bitsof (0x010fbf83 mod 256 ^ Z.of_nat 4) 19 15) with 31.
    change (sext 12 (bitsof (0x010fbf83 mod 256 ^ Z.of_nat 4) 31 20)) with 16.
    unfold rv_get at 1. cbn [Z.eqb reg]. unfold rv_set at 1. cbn [Z.eqb]. unfold set_reg at 1.
    rewrite Z.eqb_refl.
    replace (u64 (p + 16)) with (p + 4 + 4 + 4 + 4) by (rewrite u64_small by lia; lia).
    rewrite H. rewrite (u64_small (p + 4 + 4)) by lia.
    cbn [steps]. unfold rv_step. cbn [pc reg]. rewrite H4.
    change (bitsof (0x000f8067 mod 256 ^ Z.of_nat 4) 6 0 =? 0x17) with false.
    change (bitsof (0x000f8067 mod 256 ^ Z.of_nat 4) 6 0 =? 0x03) with false.
    change (bitsof (0x000f8067 mod 256 ^ Z.of_nat 4) 6 0 =? 0x67) with true.
    change (bitsof (0x000f8067 mod 256 ^ Z.of_nat 4) 14 12 =? 0) with true.
    cbv iota. cbn [andb].
    change (bitsof (0x000f8067 mod 256 ^ Z.of_nat 4) 11 7) with 0.
    change (bitsof (0x000f8067 mod 256 ^ Z.of_nat 4) 19 15) with 31.
    change (sext 12 (bitsof (0x000f8067 mod 256 ^ Z.of_nat 4) 31 20)) with 0.
    eexists; split; [reflexivity|]. cbn [pc reg].
    unfold rv_get, rv_set. cbn [Z.eqb reg]. unfold set_reg. cbn [Z.eqb Pos.eqb]. split.
    + change (256 ^ Z.of_nat 8) with (2 ^ 64).
      rewrite (Z.mod_small addr) by lia. rewrite Z.add_0_r, u64_small by lia.
      pose proof (Z.div_mod addr 2). lia.
    + intros r Hr. rewrite Hr. reflexivity.
  - (* loongarch *)
    apply holds_app in H as [H2 H]. apply holds_app in H as [H3 H].
    apply holds_app in H as [H4 H]. apply holds_app in H as [_ H].
    rewrite !le_bytes_zlen, ?Hp in *. change (Z.of_nat 4) with 4 in *.
    apply holds_load in H2. apply holds_load in H3. apply holds_load in H4.
    apply holds_load in H.
    cbn [steps]. unfold la_step at 1. cbn [pc]. rewrite H2.
    change (bitsof (0x1c00000f mod 256 ^ Z.of_nat 4) 31 25 =? 0x0e) with true. cbv iota.
    change (bitsof (0x1c00000f mod 256 ^ Z.of_nat 4) 4 0) with 15.
    change (sext 32 (bitsof (0x1c00000f mod 256 ^ Z.of_nat 4) 24 5 * 2 ^ 12)) with 0.
    rewrite Z.add_0_r, (u64_small p), (u64_small (p + 4)) by lia.
    cbn [steps]. unfold la_step at 1. cbn [pc reg]. rewrite H3.
    change (bitsof (0x28c041ef mod 256 ^ Z.of_nat 4) 31 25 =? 0x0e) with false.
    change (bitsof (0x28c041ef mod 256 ^ Z.of_nat 4) 31 22 =? 0xa3) with true.
    cbv iota.
    change (bitsof (0x28c041ef mod 256 ^ Z.of_nat 4) 4 0) with 15.
    change (bitsof (0x28c041ef mod 256 ^ Z.of_nat 4) 9 5) with 15.
    change (sext 12 (bitsof (0x28c041ef mod 256 ^ Z.of_nat 4) 21 10)) with 16.
    unfold rv_get at 1. cbn [Z.eqb reg]. unfold rv_set at 1. cbn [Z.eqb]. unfold set_reg at 1.
    rewrite Z.eqb_refl.
    replace (u64 (p + 16)) with (p + 4 + 4 + 4 + 4) by (rewrite u64_small by lia; lia).
    rewrite H. rewrite (u64_small (p + 4 + 4)) by lia.
    cbn [steps]. unfold la_step. cbn [pc reg]. rewrite H4.
    change (bitsof (0x4c0001ed mod 256 ^ Z.of_nat 4) 31 25 =? 0x0e) with false.
    change (bitsof (0x4c0001ed mod 256 ^ Z.of_nat 4) 31 22 =? 0xa3) with false.
    change (bitsof (0x4c0001ed mod 256 ^ Z.of_nat 4) 31 26 =? 0x13) with true.
    cbv iota.
    change (bitsof (0x4c0001ed mod 256 ^ Z.of_nat 4) 4 0) with 13.
    change (bitsof (0x4c0001ed mod 256 ^ Z.of_nat 4) 9 5) with 15.
    change (4 * sext 16 (bitsof (0x4c0001ed mod 256 ^ Z.of_nat 4) 25 10)) with 0.
    eexists; split; [reflexivity|]. cbn [pc reg].
    unfold rv_get, rv_set. cbn [Z.eqb reg]. unfold set_reg. cbn [Z.eqb Pos.eqb]. split.
    + change (256 ^ Z.of_nat 8) with (2 ^ 64).
      rewrite (Z.mod_small addr) by lia. rewrite Z.add_0_r. apply u64_small. lia.
    + intros r Hr. apply Bool.orb_false_iff in Hr as [-> ->]. reflexivity.
Qed.

(** ** The table as bytes *)

Lemma flat_len a pad l : zlen pad = 4 ->
  zlen (flat_map (jt_entry a pad) l) = zlen l * jt_entry_size a.
Proof.
  intros Hp. induction l as [|x l IH]; [reflexivity|].
  cbn [flat_map]. rewrite zlen_app, IH, (jt_entry_len a pad x Hp), zlen_cons. lia.
Qed.

Lemma jt_bytes_len a pad t : zlen pad = 4 -> j_cur t <= j_max t ->
  zlen (jt_bytes a pad t) = jt_size a t.
Proof.
  intros Hp Hc. unfold jt_bytes, jt_size, JT_HDR.
  rewrite !zlen_app, !le_bytes_zlen, (flat_len _ _ _ Hp).
  unfold zlen at 2. rewrite repeat_length.
  assert (0 <= (j_max t - j_cur t) * jt_entry_size a) by (destruct a; cbn; lia).
  unfold j_cur in *. lia.
Qed.

Lemma slot_bytes a pad t m base k addr : zlen pad = 4 ->
  nth_error (j_addrs t) k = Some addr ->
  holds m base (jt_bytes a pad t) ->
  holds m (base + JT_HDR + Z.of_nat k * jt_entry_size a) (jt_entry a pad addr).
Proof.
  intros Hp Hk H. unfold jt_bytes in H.
  do 4 (apply holds_app in H as [_ H]; rewrite le_bytes_zlen in H).
  apply holds_app in H as [H _].
  apply nth_error_split in Hk as (l1 & l2 & E & L). rewrite E, flat_map_app in H.
  apply holds_app in H as [_ H]. cbn [flat_map] in H. apply holds_app in H as [H _].
  rewrite (flat_len _ _ _ Hp) in H. unfold zlen in H. rewrite L in H.
  unfold JT_HDR.
  replace (base + 16 + Z.of_nat k * jt_entry_size a)
    with (base + Z.of_nat 4 + Z.of_nat 4 + Z.of_nat 4 + Z.of_nat 4
          + Z.of_nat k * jt_entry_size a) by lia. exact H.
Qed.

(** ** Resolving the symbols of a patch *)

(** A reference to a function or object of another object of the process. *)
Definition taker (s : sym) : bool :=
  ((y_type s =? STT_FUNC) || (y_type s =? STT_OBJECT)) && wants_slot s.

Lemma taker_type s : taker s = true -> (y_type s =? STT_SECTION) = false /\
  ((y_type s =? STT_FUNC) || (y_type s =? STT_OBJECT)) = true /\ wants_slot s = true.
Proof.
  unfold taker. intros H. apply andb_prop in H as [H1 H2]. split; [|auto].
  apply Bool.orb_prop in H1. destruct H1 as [H1|H1]; apply Z.eqb_eq in H1; rewrite H1;
    reflexivity.
Qed.

Section Resolve.
Context (a : arch) (base : Z) (resolve : list Z -> res Z) (shdrs : list shdr).

Lemma resolve_taker t s r : taker s = true ->
  symbol_resolve a base resolve shdrs t s = ROk r ->
  exists t0 u, t = Some t0 /\ j_cur t0 < j_max t0 /\ resolve (y_name s) = ROk u /\ u <> 0 /\
    u64 (base + JT_HDR + j_cur t0 * jt_entry_size a) <> 0 /\
    r = (set_value_size s (u64 (base + JT_HDR + j_cur t0 * jt_entry_size a)) u,
         Some {| j_max := j_max t0; j_addrs := j_addrs t0 ++ [u] |}).
Proof.
  intros T H. apply taker_type in T as (T1 & T2 & T3). unfold symbol_resolve in H.
  rewrite T1, T2, T3 in H. destruct (resolve (y_name s)) as [u| |]; try discriminate.
  destruct (u =? 0) eqn:Eu; [discriminate|]. unfold add_jmp_entry in H.
  destruct t as [t0|]; [|discriminate].
  destruct (j_max t0 <=? j_cur t0) eqn:Ec; [discriminate|].
  destruct (u64 (base + JT_HDR + j_cur t0 * jt_entry_size a) =? 0) eqn:Ev; [discriminate|].
  assert (r = (set_value_size s (u64 (base + JT_HDR + j_cur t0 * jt_entry_size a)) u,
         Some {| j_max := j_max t0; j_addrs := j_addrs t0 ++ [u] |})) by congruence.
  exists t0, u. repeat split; auto; lia.
Qed.

Lemma resolve_other t s s' t' : taker s = false ->
  symbol_resolve a base resolve shdrs t s = ROk (s', t') -> t' = t.
Proof.
  intros T H. unfold symbol_resolve in H. unfold taker in T.
  destruct (y_type s =? STT_SECTION).
  { destruct (sh_addr_of shdrs (y_shndx s)); congruence. }
  destruct ((y_type s =? STT_FUNC) || (y_type s =? STT_OBJECT)).
  { rewrite Bool.andb_true_l in T. rewrite T in H.
    destruct (sh_addr_of shdrs (y_shndx s)); congruence. }
  destruct (y_type s =? STT_TLS); [congruence|].
  destruct (y_type s =? STT_NOTYPE); [|discriminate].
  destruct (sh_addr_of shdrs (y_shndx s)); congruence.
Qed.

Definition ntakers (l : list sym) : nat := length (filter taker l).

Lemma resolve_symbols_spec syms : forall t syms' t',
  resolve_symbols a base resolve shdrs (Some t) syms = ROk (syms', t') ->
  j_cur t <= j_max t ->
  exists new,
    t' = Some {| j_max := j_max t; j_addrs := j_addrs t ++ new |} /\
    length new = ntakers syms /\ zlen (j_addrs t ++ new) <= j_max t /\
    length syms' = length syms /\
    (forall i s, nth_error syms i = Some s -> taker s = true ->
       exists u, resolve (y_name s) = ROk u /\ u <> 0 /\
         nth_error new (ntakers (firstn i syms)) = Some u /\
         nth_error syms' i =
           Some (set_value_size s
             (u64 (base + JT_HDR + (j_cur t + Z.of_nat (ntakers (firstn i syms)))
                                   * jt_entry_size a)) u)).
Proof.
  induction syms as [|s r IH]; intros t syms' t' H Hc; cbn [resolve_symbols] in H.
  - injection H as <- <-. exists []. rewrite app_nil_r. split; [destruct t; reflexivity|].
    repeat split; auto; intros [|i] s E; discriminate.
  - destruct (symbol_resolve a base resolve shdrs (Some t) s) as [[s1 t1]| |] eqn:Es;
      try discriminate.
    destruct (resolve_symbols a base resolve shdrs t1 r) as [[r1 t2]| |] eqn:Er;
      try discriminate.
    injection H as <- <-. destruct (taker s) eqn:T.
    + destruct (resolve_taker _ _ _ T Es) as (t0 & u & E0 & L & Ru & Nu & Nv & E1).
      apply some_inj in E0. subst t0. injection E1 as -> ->.
      apply IH in Er as (new & -> & Ln & Lm & Ll & Hn).
      2:{ unfold j_cur in *. cbn [j_addrs j_max]. rewrite zlen_app. cbn. lia. }
      cbn [j_max j_addrs] in *. rewrite <- app_assoc in *. cbn [app] in *.
      exists (u :: new). split; [reflexivity|]. split.
      { unfold ntakers. cbn [filter]. rewrite T. cbn [length]. fold (ntakers r). lia. }
      split; [exact Lm|]. split; [cbn; lia|].
      intros i x Ei Tx. destruct i as [|i].
      * cbn in Ei. apply some_inj in Ei. subst x. exists u. cbn [firstn].
        change (ntakers []) with 0%nat. cbn [nth_error]. rewrite Z.add_0_r. auto.
      * cbn [nth_error] in Ei. destruct (Hn i x Ei Tx) as (v & R1 & R2 & R3 & R4).
        exists v. cbn [firstn nth_error]. unfold ntakers in *. cbn [filter]. rewrite T.
        cbn [length nth_error]. repeat split; auto. rewrite R4. do 4 f_equal.
        unfold j_cur. cbn [j_addrs]. rewrite zlen_app. change (zlen [u]) with 1. lia.
    + pose proof (resolve_other _ _ _ _ T Es) as ->.
      apply IH in Er as (new & -> & Ln & Lm & Ll & Hn); [|exact Hc].
      exists new. split; [reflexivity|]. split.
      { unfold ntakers. cbn [filter]. rewrite T. exact Ln. }
      split; [exact Lm|]. split; [cbn; lia|].
      intros i x Ei Tx. destruct i as [|i].
      * cbn in Ei. congruence.
      * cbn [nth_error] in Ei. destruct (Hn i x Ei Tx) as (v & R1 & R2 & R3 & R4).
        exists v. cbn [firstn nth_error]. unfold ntakers in *. cbn [filter]. rewrite T.
        auto.
Qed.

(** Without a table no symbol may want a slot. *)
Lemma resolve_symbols_none syms : forall syms' t',
  resolve_symbols a base resolve shdrs None syms = ROk (syms', t') ->
  t' = None /\ forall s, In s syms -> taker s = false.
Proof.
  induction syms as [|s r IH]; intros syms' t' H; cbn [resolve_symbols] in H.
  - injection H as <- <-. split; [reflexivity|]. intros s [].
  - destruct (symbol_resolve a base resolve shdrs None s) as [[s1 t1]| |] eqn:Es;
      try discriminate.
    destruct (taker s) eqn:T.
    + destruct (resolve_taker _ _ _ T Es) as (t0 & u & E0 & _). discriminate.
    + pose proof (resolve_other _ _ _ _ T Es) as ->.
      destruct (resolve_symbols a base resolve shdrs None r) as [[r1 t2]| |] eqn:Er;
        try discriminate.
      injection H as <- <-. destruct (IH _ _ eq_refl) as [-> Hr]. split; [reflexivity|].
      intros x [<-|Hx]; auto.
Qed.

(** Symbols that are not references to another object. *)
Lemma resolve_symbols_other syms : forall t syms' t' i s,
  resolve_symbols a base resolve shdrs t syms = ROk (syms', t') ->
  nth_error syms i = Some s -> taker s = false ->
  exists s', nth_error syms' i = Some s' /\
    symbol_resolve a base resolve shdrs None s = ROk (s', None).
Proof.
  assert (NT : forall t s s' t', taker s = false ->
    symbol_resolve a base resolve shdrs t s = ROk (s', t') ->
    symbol_resolve a base resolve shdrs None s = ROk (s', None)).
  { intros t s s' t' T H. unfold symbol_resolve in *. unfold taker in T.
    destruct (y_type s =? STT_SECTION).
    { destruct (sh_addr_of shdrs (y_shndx s)); congruence. }
    destruct ((y_type s =? STT_FUNC) || (y_type s =? STT_OBJECT)).
    { rewrite Bool.andb_true_l in T. rewrite T in *.
      destruct (sh_addr_of shdrs (y_shndx s)); congruence. }
    destruct (y_type s =? STT_TLS); [congruence|].
    destruct (y_type s =? STT_NOTYPE); [|discriminate].
    destruct (sh_addr_of shdrs (y_shndx s)); congruence. }
  induction syms as [|x r IH]; intros t syms' t' i s H Ei T; [destruct i; discriminate|].
  cbn [resolve_symbols] in H.
  destruct (symbol_resolve a base resolve shdrs t x) as [[s1 t1]| |] eqn:Es; try discriminate.
  destruct (resolve_symbols a base resolve shdrs t1 r) as [[r1 t2]| |] eqn:Er; try discriminate.
  injection H as <- <-. destruct i as [|i]; cbn [nth_error] in *.
  - apply some_inj in Ei. subst x. exists s1. split; [reflexivity|]. eapply NT; eauto.
  - eapply IH; eauto.
Qed.

(** There is room for everybody. *)
Lemma resolve_symbols_total syms : forall t,
  (forall s, In s syms -> taker s = true ->
     exists u, resolve (y_name s) = ROk u /\ u <> 0) ->
  (forall s, In s syms -> taker s = false ->
     y_type s = STT_TLS \/
     ((y_type s = STT_SECTION \/ y_type s = STT_NOTYPE \/ y_type s = STT_FUNC
       \/ y_type s = STT_OBJECT) /\ exists h, nth_error shdrs (Z.to_nat (y_shndx s)) = Some h)) ->
  0 <= base -> base + JT_HDR + j_max t * jt_entry_size a < 2 ^ 64 ->
  j_cur t + Z.of_nat (ntakers syms) <= j_max t ->
  exists r, resolve_symbols a base resolve shdrs (Some t) syms = ROk r.
Proof.
  induction syms as [|s r IH]; intros t HT HN Hb Hw Hc; cbn [resolve_symbols].
  - eexists; reflexivity.
  - destruct (taker s) eqn:T.
    + destruct (HT s (or_introl eq_refl) T) as (u & Ru & Nu).
      unfold ntakers in Hc. cbn [filter] in Hc. rewrite T in Hc. cbn [length] in Hc.
      fold (ntakers r) in Hc.
      apply taker_type in T as (T1 & T2 & T3). unfold symbol_resolve.
      rewrite T1, T2, T3, Ru. apply Z.eqb_neq in Nu. rewrite Nu. unfold add_jmp_entry.
      assert (Ec : (j_max t <=? j_cur t) = false) by lia. rewrite Ec.
      pose proof (zlen_nonneg (j_addrs t)) as Hz. fold (j_cur t) in Hz.
      assert (Hs : 16 <= jt_entry_size a) by (destruct a; cbn; lia).
      assert (Ev : (u64 (base + JT_HDR + j_cur t * jt_entry_size a) =? 0) = false).
      { unfold JT_HDR in *. rewrite u64_small; [lia|]. nia. }
      rewrite Ev.
      edestruct (IH {| j_max := j_max t; j_addrs := j_addrs t ++ [u] |}) as [[r1 t1] E1];
        [..|rewrite E1; eexists; reflexivity].
      * intros; apply HT; cbn; auto.
      * intros; apply HN; cbn; auto.
      * exact Hb.
      * exact Hw.
      * unfold j_cur in *. cbn [j_addrs j_max]. rewrite zlen_app. change (zlen [u]) with 1. lia.
    + assert (E : exists s', symbol_resolve a base resolve shdrs (Some t) s = ROk (s', Some t)).
      { destruct (HN s (or_introl eq_refl) T) as [E|[E [h Eh]]].
        - unfold symbol_resolve. rewrite E. eexists; reflexivity.
        - unfold symbol_resolve, sh_addr_of. rewrite Eh. unfold taker in T.
          destruct E as [E|[E|E]].
          + rewrite E. eexists; reflexivity.
          + rewrite E. eexists; reflexivity.
          + destruct (wants_slot s).
            * exfalso. rewrite Bool.andb_true_r in T. apply Bool.orb_false_iff in T as [T1 T2].
              apply Z.eqb_neq in T1. apply Z.eqb_neq in T2. tauto.
            * destruct E as [E|E]; rewrite E; eexists; reflexivity. }
      destruct E as [s' E]. rewrite E.
      edestruct (IH t) as [[r1 t1] E1]; [..|rewrite E1; eexists; reflexivity]; auto.
      * intros; apply HT; cbn; auto.
      * intros; apply HN; cbn; auto.
      * unfold ntakers in *. cbn [filter] in Hc. rewrite T in Hc. exact Hc.
Qed.
End Resolve.

Lemma ntakers_le l : (ntakers l <= length (filter wants_slot l))%nat.
Proof.
  unfold ntakers, taker. induction l as [|s l IH]; [apply le_n|]. cbn [filter].
  destruct ((y_type s =? STT_FUNC) || (y_type s =? STT_OBJECT)); cbn [andb];
    destruct (wants_slot s); cbn [length]; lia.
Qed.

Lemma ntakers_firstn l i s j s' : nth_error l i = Some s -> nth_error l j = Some s' ->
  taker s = true -> taker s' = true -> ntakers (firstn i l) = ntakers (firstn j l) -> i = j.
Proof.
  revert i j; induction l as [|x l IH]; intros i j Ei Ej Ti Tj E; [destruct i; discriminate|].
  destruct i as [|i], j as [|j]; cbn [nth_error] in Ei, Ej; [reflexivity|..].
  - apply some_inj in Ei. subst x. unfold ntakers in E. cbn [firstn filter] in E.
    rewrite Ti in E. discriminate.
  - apply some_inj in Ej. subst x. unfold ntakers in E. cbn [firstn filter] in E.
    rewrite Tj in E. discriminate.
  - f_equal. apply (IH i j Ei Ej Ti Tj). unfold ntakers in *. cbn [firstn filter] in E.
    destruct (taker x); cbn [length] in E; lia.
Qed.
