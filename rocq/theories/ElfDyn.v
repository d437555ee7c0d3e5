(** Proofs about dynamic symbols: sorting, binary search, first exporter. *)
From Coq Require Import Permutation Sorted.
From Verif Require Import Base BaseProofs StorageProofs RelocModel ElfModel ElfSpec ElfJump
  ElfNote.

(** ** Order on names *)

Lemma strcmp_le_trans x y z : str_ok x -> str_ok y -> str_ok z ->
  strcmp x y <= 0 -> strcmp y z <= 0 -> strcmp x z <= 0.
Proof.
  intros Hx Hy Hz H1 H2.
  destruct (Z.eq_dec (strcmp x y) 0) as [E|E].
  { apply strcmp_eq in E; auto. subst. exact H2. }
  destruct (Z.eq_dec (strcmp y z) 0) as [E'|E'].
  { apply strcmp_eq in E'; auto. subst. exact H1. }
  pose proof (strcmp_trans x y z Hx Hy Hz). lia.
Qed.

(** A symbol the sort can handle. *)
Definition dsym_ok (s : dsym) : Prop :=
  0 <= n_off s < 2 ^ 31 /\
  (undef_dsym s = false -> exists nm, n_name s = Some nm /\ str_ok nm).

Lemma s32_small x : - 2 ^ 31 <= x < 2 ^ 31 -> s32 x = x.
Proof.
  intros H. unfold s32, sext.
  change (2 ^ (32 - 1)) with (2 ^ 31) in *.
  rewrite ?Z.add_mod_idemp_l by lia.
  destruct (Z.ltb_spec (x mod 2 ^ 32) (2 ^ 31)) as [C|C] ; Z.div_mod_to_equations; lia.
Qed.

Lemma name_cmp_preorder l : Forall dsym_ok l -> preorder_on sym_name_cmp l.
Proof.
  intros F. rewrite Forall_forall in F. split.
  - intros a b Ha Hb. destruct (F a Ha) as [Oa Na]. destruct (F b Hb) as [Ob Nb].
    unfold sym_name_cmp.
    destruct (undef_dsym a), (undef_dsym b); cbn [Z.sub Z.eqb negb Z.add Z.opp Z.pos_sub Pos.eqb];
      try lia.
    + rewrite !s32_small by lia. lia.
    + destruct (Na eq_refl) as (x & -> & Sx). destruct (Nb eq_refl) as (y & -> & Sy).
      rewrite (strcmp_antisym x y). lia.
  - intros a b c Ha Hb Hc. destruct (F a Ha) as [Oa Na]. destruct (F b Hb) as [Ob Nb].
    destruct (F c Hc) as [Oc Nc]. unfold sym_name_cmp.
    destruct (undef_dsym a), (undef_dsym b), (undef_dsym c);
      cbn [Z.sub Z.eqb negb Z.add Z.opp Z.pos_sub Pos.eqb]; try lia.
    + rewrite !s32_small by lia. lia.
    + destruct (Na eq_refl) as (x & -> & Sx). destruct (Nb eq_refl) as (y & -> & Sy).
      destruct (Nc eq_refl) as (z & -> & Sz). apply strcmp_le_trans; auto.
Qed.

(** ** The defined symbols come first *)

Lemma defined_prefix_in l : StronglySorted (fun a b => sym_name_cmp a b <= 0) l ->
  forall s, In s (defined_prefix l) <-> In s l /\ undef_dsym s = false.
Proof.
  induction 1 as [|x l S IH F]; intros s; cbn [defined_prefix].
  - cbn. tauto.
  - destruct (undef_dsym x) eqn:U.
    + split; [intros []|]. intros [[<-|Hs] Us]; [congruence|].
      rewrite Forall_forall in F. specialize (F s Hs). unfold sym_name_cmp in F.
      rewrite U, Us in F. cbn in F. lia.
    + cbn [In]. rewrite IH. split.
      * intros [<-|[H1 H2]]; auto.
      * intros [[<-|H1] H2]; auto.
Qed.

Lemma defined_prefix_sorted l : StronglySorted (fun a b => sym_name_cmp a b <= 0) l ->
  StronglySorted (fun a b => sym_name_cmp a b <= 0) (defined_prefix l).
Proof.
  induction 1 as [|x l S IH F]; cbn [defined_prefix]; [constructor|].
  destruct (undef_dsym x); [constructor|]. constructor; [exact IH|].
  rewrite Forall_forall in *. intros y Hy. apply F.
  apply (defined_prefix_in l S) in Hy. tauto.
Qed.

(** ** Binary search *)

Lemma ss_nth {A} (R : A -> A -> Prop) l : StronglySorted R l ->
  forall i j a b, (i < j)%nat -> nth_error l i = Some a -> nth_error l j = Some b -> R a b.
Proof.
  induction 1 as [|x l S IH F]; intros i j a b L Ei Ej; [destruct i; discriminate|].
  destruct j as [|j]; [lia|]. destruct i as [|i]; cbn in *.
  - apply some_inj in Ei. subst. rewrite Forall_forall in F. apply F.
    eapply nth_error_In; eauto.
  - eapply (IH i j); eauto. lia.
Qed.

Definition named (s : dsym) (nm : list Z) : Prop := n_name s = Some nm.

Lemma bsearch_spec key l : str_ok key ->
  (forall s, In s l -> undef_dsym s = false /\ exists nm, n_name s = Some nm /\ str_ok nm) ->
  StronglySorted (fun a b => sym_name_cmp a b <= 0) l ->
  forall fuel lo hi, (hi <= length l)%nat -> (hi - lo < fuel)%nat ->
  match bsearch fuel key l lo hi with
  | Some n => exists s, nth_error l n = Some s /\ named s key
  | None => forall n s, (lo <= n < hi)%nat -> nth_error l n = Some s -> ~ named s key
  end.
Proof.
  intros Sk Ok S. induction fuel as [|f IH]; intros lo hi Hh Hf; [lia|].
  cbn [bsearch]. destruct (Nat.ltb_spec lo hi) as [L|L].
  2:{ intros n s Hn. lia. }
  set (mid := Nat.div2 (lo + hi)).
  assert (Hm : (lo <= mid < hi)%nat).
  { unfold mid. rewrite Nat.div2_div. split.
    - apply Nat.div_le_lower_bound; lia.
    - apply Nat.div_lt_upper_bound; lia. }
  clearbody mid.
  destruct (nth_error l mid) as [s|] eqn:Es.
  2:{ apply nth_error_None in Es. lia. }
  destruct (Ok s (nth_error_In _ _ Es)) as (Us & nm & En & Sn). rewrite En.
  destruct (Z.ltb_spec (strcmp key nm) 0) as [C|C].
  { specialize (IH lo mid ltac:(lia) ltac:(lia)).
    destruct (bsearch f key l lo mid) as [n|]; [exact IH|].
    intros n x Hn Ex Nx. destruct (Nat.lt_ge_cases n mid) as [Q|Q].
    - exact (IH n x ltac:(lia) Ex Nx).
    - unfold named in Nx. assert (R : strcmp nm key <= 0).
      { destruct (Nat.eq_dec n mid) as [->|D].
        - rewrite Es in Ex. apply some_inj in Ex. subst x. rewrite En in Nx.
          apply some_inj in Nx. subst nm. lia.
        - destruct (Ok x (nth_error_In _ _ Ex)) as (Ux & _).
          pose proof (ss_nth _ _ S mid n s x ltac:(lia) Es Ex) as R.
          unfold sym_name_cmp in R. rewrite Us, Ux, En, Nx in R. exact R. }
      rewrite (strcmp_antisym key nm) in R. lia. }
  destruct (Z.ltb_spec 0 (strcmp key nm)) as [C'|C'].
  { specialize (IH (Datatypes.S mid) hi ltac:(lia) ltac:(lia)).
    destruct (bsearch f key l (Datatypes.S mid) hi) as [n|]; [exact IH|].
    intros n x Hn Ex Nx. destruct (Nat.le_gt_cases n mid) as [Q|Q].
    - unfold named in Nx. assert (R : strcmp key nm <= 0).
      { destruct (Nat.eq_dec n mid) as [->|D].
        - rewrite Es in Ex. apply some_inj in Ex. subst x. rewrite En in Nx.
          apply some_inj in Nx. subst nm. rewrite (proj2 (strcmp_eq key key Sk Sk) eq_refl). lia.
        - destruct (Ok x (nth_error_In _ _ Ex)) as (Ux & _).
          pose proof (ss_nth _ _ S n mid x s ltac:(lia) Ex Es) as R.
          unfold sym_name_cmp in R. rewrite Us, Ux, En, Nx in R. exact R. }
      lia.
    - exact (IH n x ltac:(lia) Ex Nx). }
  exists s. split; [exact Es|]. unfold named. rewrite En. f_equal. symmetry.
  apply strcmp_eq; auto. lia.
Qed.

(** Looking a name up in the loaded table of [syms]. *)
Lemma lookup_spec qs syms key : qsort_ok qs -> Forall dsym_ok syms -> str_ok key ->
  match resolve_single (ROk (defined_prefix (qs dsym sym_name_cmp syms))) key with
  | ROk (ty, v) => exists s, In s syms /\ undef_dsym s = false /\ named s key /\
                             ty = n_type s /\ v = n_value s
  | RErr => forall s, In s syms -> undef_dsym s = false -> ~ named s key
  | RUndef => False
  end.
Proof.
  intros Q F Sk. destruct (Q dsym sym_name_cmp syms (name_cmp_preorder _ F)) as [P S].
  set (l := defined_prefix (qs dsym sym_name_cmp syms)).
  assert (In_l : forall s, In s l <-> In s syms /\ undef_dsym s = false).
  { intros s. unfold l. rewrite (defined_prefix_in _ S).
    split; intros [H1 H2]; split; auto.
    - eapply Permutation_in; [apply Permutation_sym, P|exact H1].
    - eapply Permutation_in; [exact P|exact H1]. }
  assert (Ok : forall s, In s l -> undef_dsym s = false /\
                           exists nm, n_name s = Some nm /\ str_ok nm).
  { intros s Hs. apply In_l in Hs as [H1 H2]. split; [exact H2|].
    rewrite Forall_forall in F. destruct (F s H1) as [_ H]. auto. }
  pose proof (bsearch_spec key l Sk Ok (defined_prefix_sorted _ S)
                (Datatypes.S (length l)) 0 (length l) ltac:(lia) ltac:(lia)) as B.
  unfold resolve_single.
  destruct (bsearch (Datatypes.S (length l)) key l 0 (length l)) as [n|].
  - destruct B as (s & Es & Ns). rewrite Es. exists s.
    apply nth_error_In in Es. apply In_l in Es as [H1 H2]. auto.
  - intros s Hs Us Ns. assert (Hl : In s l) by (apply In_l; auto).
    apply In_nth_error in Hl as [n En].
    apply (B n s); auto. split; [lia|]. apply nth_error_Some. congruence.
Qed.

(** ** The table as found in memory *)

Lemma decode_array_map {A B} (dec : list Z -> option B) (enc : A -> list Z) (f : A -> B) sz bs l :
  (forall x, In x l -> dec (enc x) = Some (f x)) -> (forall x, In x l -> zlen (enc x) = sz) ->
  0 <= sz ->
  forall pre post, bs = pre ++ flat_map enc l ++ post ->
  decode_array dec sz bs (zlen pre) (length l) = Some (map f l).
Proof.
  intros D Lz Sz. induction l as [|x l IH]; intros pre post E; [reflexivity|].
  cbn [decode_array length flat_map map] in *.
  assert (S : slice bs (zlen pre) sz = Some (enc x)).
  { unfold slice. rewrite E. rewrite !zlen_app. rewrite (Lz x (or_introl eq_refl)).
    pose proof (zlen_nonneg pre). pose proof (zlen_nonneg (flat_map enc l)).
    pose proof (zlen_nonneg post).
    replace ((0 <=? zlen pre) && (0 <=? sz) && _) with true by lia. f_equal.
    unfold zlen at 1. rewrite Nat2Z.id.
    rewrite skipn_app, skipn_all, Nat.sub_diag. cbn [app skipn].
    assert (Hl : Z.to_nat sz = length (enc x)).
    { pose proof (Lz x (or_introl eq_refl)) as Q. unfold zlen in Q. lia. }
    rewrite Hl, <- app_assoc, firstn_app, firstn_all, Nat.sub_diag. cbn [firstn].
    apply app_nil_r. }
  rewrite S, (D x (or_introl eq_refl)).
  rewrite <- (Lz x (or_introl eq_refl)) at 2. rewrite <- zlen_app.
  rewrite (IH (fun y H => D y (or_intror H)) (fun y H => Lz y (or_intror H))
              (pre ++ enc x) post); [reflexivity|].
  rewrite E, <- !app_assoc. reflexivity.
Qed.

Lemma field_app pre k x post : 0 <= x < 256 ^ Z.of_nat k ->
  field (pre ++ le_bytes k x ++ post) (zlen pre) (Z.of_nat k) = Some x.
Proof.
  intros Hx. unfold field, slice. rewrite !zlen_app, le_bytes_zlen.
  pose proof (zlen_nonneg pre). pose proof (zlen_nonneg post).
  replace ((0 <=? zlen pre) && (0 <=? Z.of_nat k) && _) with true by lia.
  unfold zlen at 1. rewrite !Nat2Z.id, skipn_app, skipn_all, Nat.sub_diag. cbn [app skipn].
  rewrite firstn_app, le_bytes_length, Nat.sub_diag. cbn [firstn].
  rewrite app_nil_r.
  replace (firstn k (le_bytes k x)) with (le_bytes k x).
  2:{ symmetry. rewrite <- (le_bytes_length k x) at 1. apply firstn_all. }
  rewrite le_val_bytes. f_equal. apply Z.mod_small. exact Hx.
Qed.

Definition of_raw (strs : list Z) (s : rawsym) : dsym :=
  {| n_off := w_name s; n_name := str_at strs (w_name s); n_type := w_info s mod 16;
     n_shndx := w_shndx s; n_value := w_value s |}.

Lemma decode_enc_sym strs s : rawsym_ok s -> decode_dsym strs (enc_sym s) = Some (of_raw strs s).
Proof.
  intros (H1 & H2 & H3 & H4 & H5 & H6). unfold decode_dsym, enc_sym.
  set (bs := le_bytes 4 (w_name s) ++ _).
  assert (F1 : field bs 0 4 = Some (w_name s)) by (exact (field_app [] 4 _ _ H1)).
  assert (F2 : field bs 4 1 = Some (w_info s)).
  { exact (field_app (le_bytes 4 (w_name s)) 1 _ _ H2). }
  assert (F3 : field bs 6 2 = Some (w_shndx s)).
  { unfold bs. rewrite !app_assoc.
    rewrite <- (app_assoc _ (le_bytes 8 (w_value s))). rewrite <- (app_assoc _ (le_bytes 2 _)).
    exact (field_app ((le_bytes 4 (w_name s) ++ le_bytes 1 (w_info s))
                      ++ le_bytes 1 (w_other s)) 2 _ _ H4). }
  assert (F4 : field bs 8 8 = Some (w_value s)).
  { unfold bs. rewrite !app_assoc. rewrite <- (app_assoc _ (le_bytes 8 (w_value s))).
    exact (field_app (((le_bytes 4 (w_name s) ++ le_bytes 1 (w_info s))
                      ++ le_bytes 1 (w_other s)) ++ le_bytes 2 (w_shndx s)) 8 _ _ H5). }
  clearbody bs. rewrite F1, F2, F3, F4. unfold of_raw. do 2 f_equal.
  change 15 with (Z.ones 4). rewrite Z.land_ones by lia. reflexivity.
Qed.

Lemma enc_sym_len s : zlen (enc_sym s) = 24.
Proof. unfold enc_sym. rewrite !zlen_app, !le_bytes_zlen. reflexivity. Qed.

Lemma flat_map_len {A} (enc : A -> list Z) k l : (forall x, In x l -> zlen (enc x) = k) ->
  zlen (flat_map enc l) = k * zlen l.
Proof.
  induction l as [|x l IH]; intros H; [cbn; lia|]. cbn [flat_map].
  rewrite zlen_app, zlen_cons, H, IH; [lia| |left; reflexivity]. intros; apply H; right; auto.
Qed.

Lemma cstr_inv bs s : cstr bs = Some s -> exists r, bs = s ++ 0 :: r /\ ~ In 0 s.
Proof.
  revert s; induction bs as [|b bs IH]; intros s H; cbn [cstr] in H; [discriminate|].
  destruct (Z.eqb_spec b 0) as [->|N].
  - apply some_inj in H. subst. exists bs. split; [reflexivity|intros []].
  - destruct (cstr bs) as [x|]; [|discriminate]. apply some_inj in H. subst.
    destruct (IH x eq_refl) as (r & -> & Nz). exists r. split; [reflexivity|].
    cbn. intros [E|E]; [lia|auto].
Qed.

Lemma string_at_str strs off nm : bytes_ok strs ->
  (string_at strs off nm <-> 0 <= off < zlen strs /\ str_at strs off = Some nm) .
Proof.
  intros Ok. unfold string_at, str_at. split.
  - intros (F & pre & post & E & L). split.
    { rewrite E, !zlen_app, zlen_cons. pose proof (zlen_nonneg pre).
      pose proof (zlen_nonneg nm). pose proof (zlen_nonneg post). lia. }
    rewrite E, <- L. unfold zlen. rewrite Nat2Z.id, skipn_app, skipn_all, Nat.sub_diag.
    cbn [app skipn]. apply cstr_app. unfold str_ok.
    rewrite E in Ok. unfold bytes_ok in Ok. apply Forall_app in Ok as [_ Ok].
    apply Forall_app in Ok as [Ok _]. rewrite Forall_forall in *. intros c Hc.
    specialize (F c Hc). specialize (Ok c Hc). unfold byte_ok in Ok. lia.
  - intros [R H]. apply cstr_inv in H as (r & E & Nz). split.
    + apply Forall_forall. intros c Hc. assert (B : In c strs).
      { apply (in_skipn Z (Z.to_nat off)). rewrite E. apply in_or_app. auto. }
      unfold bytes_ok in Ok. rewrite Forall_forall in Ok. specialize (Ok c B).
      unfold byte_ok in Ok. assert (c <> 0) by (intros ->; auto). lia.
    + exists (firstn (Z.to_nat off) strs), r. rewrite <- E.
      split; [symmetry; apply firstn_skipn|].
      unfold zlen in *. rewrite firstn_length. lia.
Qed.

Lemma string_at_ok strs off nm : bytes_ok strs -> string_at strs off nm -> str_ok nm.
Proof.
  intros Ok (F & pre & post & E & _). unfold str_ok. rewrite E in Ok. unfold bytes_ok in Ok.
  apply Forall_app in Ok as [_ Ok]. apply Forall_app in Ok as [Ok _].
  rewrite Forall_forall in *. intros c Hc. specialize (F c Hc). specialize (Ok c Hc).
  unfold byte_ok in Ok. lia.
Qed.

Lemma scan_dyn_spec sy st sz ds : forall a b c,
  (forall v, In (6, v) ds -> v = sy) -> (forall v, In (5, v) ds -> v = st) ->
  (forall v, In (10, v) ds -> v = sz) -> (forall v, In (11, v) ds -> v = 24) ->
  exists a' b' c', scan_dyn ds (a, b, c) = Some (a', b', c') /\
    (a' = sy \/ (a' = a /\ forall v, ~ In (6, v) ds)) /\
    (b' = st \/ (b' = b /\ forall v, ~ In (5, v) ds)) /\
    (c' = sz \/ (c' = c /\ forall v, ~ In (10, v) ds)).
Proof.
  induction ds as [|[t v] ds IH]; intros a b c H1 H2 H3 H4; cbn [scan_dyn].
  - exists a, b, c. split; [reflexivity|]. repeat split; right; auto.
  - assert (T1 : forall x, In (6, x) ds -> x = sy) by (intros; apply H1; right; auto).
    assert (T2 : forall x, In (5, x) ds -> x = st) by (intros; apply H2; right; auto).
    assert (T3 : forall x, In (10, x) ds -> x = sz) by (intros; apply H3; right; auto).
    assert (T4 : forall x, In (11, x) ds -> x = 24) by (intros; apply H4; right; auto).
    unfold DT_SYMTAB, DT_STRTAB, DT_STRSZ, DT_SYMENT, SYM_SIZE.
    destruct (Z.eqb_spec t 6) as [->|N6].
    { assert (v = sy) by (apply H1; left; reflexivity). subst v.
      destruct (IH sy b c T1 T2 T3 T4) as (a' & b' & c' & E & P1 & P2 & P3).
      exists a', b', c'. split; [exact E|]. repeat split.
      - left. destruct P1 as [P|[P _]]; exact P.
      - destruct P2 as [P|[P Q]]; [left; exact P|right]. split; [exact P|].
        intros x [X|X]; [congruence|eapply Q; eauto].
      - destruct P3 as [P|[P Q]]; [left; exact P|right]. split; [exact P|].
        intros x [X|X]; [congruence|eapply Q; eauto]. }
    destruct (Z.eqb_spec t 5) as [->|N5].
    { assert (v = st) by (apply H2; left; reflexivity). subst v.
      destruct (IH a st c T1 T2 T3 T4) as (a' & b' & c' & E & P1 & P2 & P3).
      exists a', b', c'. split; [exact E|]. repeat split.
      - destruct P1 as [P|[P Q]]; [left; exact P|right]. split; [exact P|].
        intros x [X|X]; [congruence|eapply Q; eauto].
      - left. destruct P2 as [P|[P _]]; exact P.
      - destruct P3 as [P|[P Q]]; [left; exact P|right]. split; [exact P|].
        intros x [X|X]; [congruence|eapply Q; eauto]. }
    destruct (Z.eqb_spec t 10) as [->|N10].
    { assert (v = sz) by (apply H3; left; reflexivity). subst v.
      destruct (IH a b sz T1 T2 T3 T4) as (a' & b' & c' & E & P1 & P2 & P3).
      exists a', b', c'. split; [exact E|]. repeat split.
      - destruct P1 as [P|[P Q]]; [left; exact P|right]. split; [exact P|].
        intros x [X|X]; [congruence|eapply Q; eauto].
      - destruct P2 as [P|[P Q]]; [left; exact P|right]. split; [exact P|].
        intros x [X|X]; [congruence|eapply Q; eauto].
      - left. destruct P3 as [P|[P _]]; exact P. }
    assert (E0 : (if t =? 11 then if v =? 24 then scan_dyn ds (a, b, c) else None
                  else scan_dyn ds (a, b, c)) = scan_dyn ds (a, b, c)).
    { destruct (Z.eqb_spec t 11) as [->|N11]; [|reflexivity].
      rewrite (H4 v (or_introl eq_refl)). reflexivity. }
    rewrite E0.
    destruct (IH a b c T1 T2 T3 T4) as (a' & b' & c' & E & P1 & P2 & P3).
    exists a', b', c'. split; [exact E|]. repeat split.
    + destruct P1 as [P|[P Q]]; [left; exact P|right]. split; [exact P|].
      intros x [X|X]; [congruence|eapply Q; eauto].
    + destruct P2 as [P|[P Q]]; [left; exact P|right]. split; [exact P|].
      intros x [X|X]; [congruence|eapply Q; eauto].
    + destruct P3 as [P|[P Q]]; [left; exact P|right]. split; [exact P|].
      intros x [X|X]; [congruence|eapply Q; eauto].
Qed.

(** A loaded library: where its dynamic section is, and that it names a symbol table
    with the string table right behind it. *)
Record dyn_table (riscv : bool) (m : mem) (load : Z) (phs : list phdr)
    (syms : list rawsym) (strs : list Z) (p : phdr) (ds : list (Z * Z)) (symtab : Z) : Prop := {
  dt_first : exists pre post, phs = pre ++ p :: post /\ Forall (fun q => p_type q <> 2) pre;
  dt_type : p_type p = 2;
  dt_size : p_memsz p = 16 * zlen ds;
  dt_addr : 0 <= load + p_vaddr p < 2 ^ 64;
  dt_vals : forall t v, In (t, v) ds -> 0 <= t < 2 ^ 64 /\ 0 <= v < 2 ^ 64;
  dt_mem : holds m (load + p_vaddr p) (flat_map enc_dyn ds);
  dt_symtab : forall v, In (6, v) ds <-> v = symtab;
  dt_strtab : forall v, In (5, v) ds <-> v = symtab + 24 * zlen syms;
  dt_strsz : forall v, In (10, v) ds <-> v = zlen strs;
  dt_syment : forall v, In (11, v) ds -> v = 24;
  dt_range : 0 <= symtab /\ 0 <= load /\
             symtab + load + 24 * zlen syms + zlen strs < 2 ^ 64;
  dt_tables : holds m (if riscv then symtab + load else symtab)
                    (flat_map enc_sym syms ++ strs);
  dt_syms : Forall rawsym_ok syms;
  dt_strs : bytes_ok strs;
  dt_names : Forall (fun s => w_name s < 2 ^ 31 /\
                       (raw_defined s -> exists nm, string_at strs (w_name s) nm)) syms }.

Lemma find_first {A} (f : A -> bool) pre p post :
  Forall (fun q => f q = false) pre -> f p = true -> find f (pre ++ p :: post) = Some p.
Proof.
  induction pre as [|q pre IH]; intros F Fp; cbn [app find].
  - rewrite Fp. reflexivity.
  - inversion F as [|? ? Fq F']; subst. rewrite Fq. auto.
Qed.

Lemma undef_raw strs s : rawsym_ok s -> (undef_dsym (of_raw strs s) = false <-> raw_defined s).
Proof.
  intros (_ & _ & _ & H & _). unfold undef_dsym, of_raw, raw_defined, SHN_UNDEF, SHN_LORESERVE.
  cbn [n_shndx]. lia.
Qed.

Lemma load_dynsym_spec qs riscv m load phs syms strs p ds symtab :
  dyn_table riscv m load phs syms strs p ds symtab ->
  load_dynsym qs riscv m load phs
    = ROk (defined_prefix (qs dsym sym_name_cmp (map (of_raw strs) syms)))
  /\ Forall dsym_ok (map (of_raw strs) syms).
Proof.
  intros D.
  assert (Ok : Forall dsym_ok (map (of_raw strs) syms)).
  { apply Forall_map. pose proof (dt_names _ _ _ _ _ _ _ _ _ D) as N.
    pose proof (dt_syms _ _ _ _ _ _ _ _ _ D) as O. pose proof (dt_strs _ _ _ _ _ _ _ _ _ D) as B.
    rewrite Forall_forall in *. intros s Hs. destruct (N s Hs) as [N1 N2]. specialize (O s Hs).
    split.
    - destruct O as (O1 & _). cbn. lia.
    - intros U. apply (undef_raw strs s O) in U. destruct (N2 U) as [nm Sn].
      exists nm. split; [|eapply string_at_ok; eauto].
      cbn. apply (string_at_str strs _ nm B) in Sn. tauto. }
  split; [|exact Ok].
  destruct (dt_first _ _ _ _ _ _ _ _ _ D) as (pre & post & -> & Fpre).
  unfold load_dynsym. rewrite (find_first _ pre p post).
  2:{ eapply Forall_impl; [|exact Fpre]. intros q Hq. apply Z.eqb_neq. exact Hq. }
  2:{ rewrite (dt_type _ _ _ _ _ _ _ _ _ D). reflexivity. }
  rewrite u64_small by (exact (dt_addr _ _ _ _ _ _ _ _ _ D)).
  pose proof (dt_mem _ _ _ _ _ _ _ _ _ D) as M.
  assert (Ld : zlen (flat_map enc_dyn ds) = 16 * zlen ds).
  { apply flat_map_len. intros x _. unfold enc_dyn. rewrite zlen_app, !le_bytes_zlen. reflexivity. }
  unfold mem_read. rewrite (dt_size _ _ _ _ _ _ _ _ _ D), <- Ld.
  unfold zlen at 1. rewrite Nat2Z.id, (holds_mread _ _ _ M).
  replace (Z.to_nat (zlen (flat_map enc_dyn ds) / DYN_SIZE)) with (length ds).
  2:{ rewrite Ld. unfold DYN_SIZE. rewrite Z.mul_comm, Z.div_mul by lia.
      unfold zlen. rewrite Nat2Z.id. reflexivity. }
  change 0 with (zlen (@nil Z)) at 1.
  rewrite (decode_array_map decode_dyn enc_dyn (fun x => x) DYN_SIZE _ ds) with (post := []).
  2:{ intros [t v] Hx. destruct (dt_vals _ _ _ _ _ _ _ _ _ D t v Hx) as [Ht Hv].
      unfold decode_dyn, enc_dyn. cbn [fst snd].
      pose proof (field_app [] 8 t (le_bytes 8 v) Ht) as F1.
      pose proof (field_app (le_bytes 8 t) 8 v [] Hv) as F2. rewrite app_nil_r in F2.
      change (zlen (le_bytes 8 t)) with 8 in F2. cbn [app] in F1.
      change (zlen []) with 0 in F1. change (Z.of_nat 8) with 8 in *.
      rewrite F1. rewrite F2. reflexivity. }
  2:{ intros x _. unfold enc_dyn. rewrite zlen_app, !le_bytes_zlen. reflexivity. }
  2:{ unfold DYN_SIZE. lia. }
  2:{ rewrite app_nil_r. reflexivity. }
  rewrite map_id.
  destruct (scan_dyn_spec symtab (symtab + 24 * zlen syms) (zlen strs) ds 0 0 0)
    as (a & b & c & E & P1 & P2 & P3).
  { intros v Hv. apply (dt_symtab _ _ _ _ _ _ _ _ _ D). exact Hv. }
  { intros v Hv. apply (dt_strtab _ _ _ _ _ _ _ _ _ D). exact Hv. }
  { intros v Hv. apply (dt_strsz _ _ _ _ _ _ _ _ _ D). exact Hv. }
  { exact (dt_syment _ _ _ _ _ _ _ _ _ D). }
  assert (a = symtab).
  { destruct P1 as [P|[_ P]]; [exact P|]. exfalso. apply (P symtab).
    apply (dt_symtab _ _ _ _ _ _ _ _ _ D). reflexivity. }
  assert (b = symtab + 24 * zlen syms).
  { destruct P2 as [P|[_ P]]; [exact P|]. exfalso. eapply P.
    apply (dt_strtab _ _ _ _ _ _ _ _ _ D). reflexivity. }
  assert (c = zlen strs).
  { destruct P3 as [P|[_ P]]; [exact P|]. exfalso. eapply P.
    apply (dt_strsz _ _ _ _ _ _ _ _ _ D). reflexivity. }
  subst a b c. rewrite E.
  destruct (dt_range _ _ _ _ _ _ _ _ _ D) as (R1 & R2 & R3).
  pose proof (zlen_nonneg syms) as Z1. pose proof (zlen_nonneg strs) as Z2.
  replace (symtab + 24 * zlen syms - symtab) with (24 * zlen syms) by lia.
  rewrite (u64_small (24 * zlen syms)) by lia.
  rewrite (u64_small (zlen strs + 24 * zlen syms)) by lia.
  replace (if riscv then u64 (symtab + load) else symtab)
    with (if riscv then symtab + load else symtab).
  2:{ destruct riscv; [rewrite u64_small by lia|]; reflexivity. }
  assert (Ls : zlen (flat_map enc_sym syms) = 24 * zlen syms).
  { apply flat_map_len. intros; apply enc_sym_len. }
  set (buf := flat_map enc_sym syms ++ strs).
  assert (Lb : zlen strs + 24 * zlen syms = zlen buf).
  { unfold buf. rewrite zlen_app, Ls. lia. }
  rewrite Lb. unfold zlen at 1. rewrite Nat2Z.id.
  pose proof (dt_tables _ _ _ _ _ _ _ _ _ D) as T. fold buf in T.
  rewrite (holds_mread _ _ _ T).
  assert (Sl : slice buf (24 * zlen syms) (zlen buf - 24 * zlen syms) = Some strs).
  { rewrite <- Lb. replace (zlen strs + 24 * zlen syms - 24 * zlen syms) with (zlen strs) by lia.
    unfold slice, buf. rewrite zlen_app, Ls.
    replace ((0 <=? 24 * zlen syms) && (0 <=? zlen strs) && _) with true by lia. f_equal.
    rewrite <- Ls. unfold zlen. rewrite !Nat2Z.id, skipn_app, skipn_all, Nat.sub_diag.
    cbn [app skipn]. apply firstn_all. }
  rewrite Sl.
  replace (Z.to_nat (24 * zlen syms / SYM_SIZE)) with (length syms).
  2:{ unfold SYM_SIZE. rewrite Z.mul_comm, Z.div_mul by lia. unfold zlen.
      rewrite Nat2Z.id. reflexivity. }
  change 0 with (zlen (@nil Z)) at 1.
  rewrite (decode_array_map (decode_dsym strs) enc_sym (of_raw strs) SYM_SIZE buf syms)
    with (post := strs).
  2:{ intros s Hs. apply decode_enc_sym. pose proof (dt_syms _ _ _ _ _ _ _ _ _ D) as O.
      rewrite Forall_forall in O. auto. }
  2:{ intros; apply enc_sym_len. }
  2:{ unfold SYM_SIZE. lia. }
  2:{ reflexivity. }
  replace (forallb _ (map (of_raw strs) syms)) with true; [reflexivity|].
  symmetry. apply forallb_forall. intros s Hs. rewrite Forall_forall in Ok.
  destruct (Ok s Hs) as [_ N]. destruct (undef_dsym s); [reflexivity|].
  destruct (N eq_refl) as (nm & -> & _). reflexivity.
Qed.

(** The answer of a library's table. *)
Lemma single_spec qs riscv m load phs syms strs p ds symtab key :
  qsort_ok qs -> dyn_table riscv m load phs syms strs p ds symtab -> str_ok key ->
  match resolve_single (load_dynsym qs riscv m load phs) key with
  | ROk (ty, v) => exports syms strs key ty v
  | RErr => forall ty v, ~ exports syms strs key ty v
  | RUndef => False
  end.
Proof.
  intros Q D Sk. destruct (load_dynsym_spec qs _ _ _ _ _ _ _ _ _ D) as [E Ok]. rewrite E.
  pose proof (lookup_spec qs _ key Q Ok Sk) as L.
  pose proof (dt_syms _ _ _ _ _ _ _ _ _ D) as O. rewrite Forall_forall in O.
  pose proof (dt_strs _ _ _ _ _ _ _ _ _ D) as B.
  pose proof (dt_names _ _ _ _ _ _ _ _ _ D) as N. rewrite Forall_forall in N.
  destruct (resolve_single _ key) as [[ty v]| |]; [| |exact L].
  - destruct L as (s & Hs & U & Nm & -> & ->). apply in_map_iff in Hs as (r & <- & Hr).
    exists r. split; [exact Hr|]. apply (undef_raw strs r (O r Hr)) in U. split; [exact U|].
    split; [|split; reflexivity]. destruct (N r Hr) as [_ N2]. destruct (N2 U) as [nm Sn].
    pose proof Sn as Sn'. apply (string_at_str strs _ nm B) in Sn' as [_ Sn'].
    unfold named in Nm. cbn in Nm. rewrite Sn' in Nm. apply some_inj in Nm. subst nm. exact Sn.
  - intros ty v (r & Hr & Df & Sn & _ & _).
    apply (L (of_raw strs r)).
    + apply in_map. exact Hr.
    + apply (undef_raw strs r (O r Hr)). exact Df.
    + unfold named. cbn. apply (string_at_str strs _ key B) in Sn. tauto.
Qed.

(** ** The first library that exports a name *)

(** The symbols a library exports: those of its table, or none when its table could
    not be read. *)
Definition lib_table (qs : sorter) (o : lib) (tab : list rawsym * list Z) : Prop :=
  (exists riscv m load phs p ds symtab,
     dyn_table riscv m load phs (fst tab) (snd tab) p ds symtab /\
     l_syms o = load_dynsym qs riscv m load phs)
  \/ (l_syms o = RErr /\ fst tab = []).

Lemma lib_single qs o tab key : qsort_ok qs -> lib_table qs o tab -> str_ok key ->
  match resolve_single (l_syms o) key with
  | ROk (ty, v) => exports (fst tab) (snd tab) key ty v
  | RErr => forall ty v, ~ exports (fst tab) (snd tab) key ty v
  | RUndef => False
  end.
Proof.
  intros Q [(rv & m & load & phs & p & ds & sy & D & ->)|[-> E]] Sk.
  - eapply single_spec; eauto.
  - cbn. intros ty v (s & Hs & _). rewrite E in Hs. destruct Hs.
Qed.

Definition final_addr (ifunc : Z -> option Z) (o : lib) (ty v : Z) : Z :=
  if ty =? STT_GNU_IFUNC
  then match ifunc (vaddr2addr (l_vmas o) v) with Some a => a | None => 0 end
  else vaddr2addr (l_vmas o) v.

Lemma resolve_loop_spec qs ifunc libs tabs key :
  qsort_ok qs -> Forall2 (lib_table qs) libs tabs -> str_ok key ->
  match resolve_loop ifunc libs key with
  | ROk a =>
      (exists n o tab ty v, nth_error libs n = Some o /\ nth_error tabs n = Some tab /\
         l_shared o = true /\ exports (fst tab) (snd tab) key ty v /\
         a = final_addr ifunc o ty v /\
         forall k o' tab' ty' v', (k < n)%nat -> nth_error libs k = Some o' ->
           nth_error tabs k = Some tab' -> l_shared o' = true ->
           ~ exports (fst tab') (snd tab') key ty' v')
      \/ (a = 0 /\ forall k o' tab' ty' v', nth_error libs k = Some o' ->
           nth_error tabs k = Some tab' -> l_shared o' = true ->
           ~ exports (fst tab') (snd tab') key ty' v')
  | RErr => False
  | RUndef => False
  end.
Proof.
  intros Q F Sk. induction F as [|o tab libs tabs H F IH]; cbn [resolve_loop].
  - right. split; [reflexivity|]. intros [|k] ? ? ? ? E; discriminate.
  - assert (Skip : (l_shared o = true -> forall ty v, ~ exports (fst tab) (snd tab) key ty v) ->
      match resolve_loop ifunc libs key with
      | ROk a =>
          (exists n o0 tab0 ty v, nth_error (o :: libs) n = Some o0 /\
             nth_error (tab :: tabs) n = Some tab0 /\
             l_shared o0 = true /\ exports (fst tab0) (snd tab0) key ty v /\
             a = final_addr ifunc o0 ty v /\
             forall k o' tab' ty' v', (k < n)%nat -> nth_error (o :: libs) k = Some o' ->
               nth_error (tab :: tabs) k = Some tab' -> l_shared o' = true ->
               ~ exports (fst tab') (snd tab') key ty' v')
          \/ (a = 0 /\ forall k o' tab' ty' v', nth_error (o :: libs) k = Some o' ->
               nth_error (tab :: tabs) k = Some tab' -> l_shared o' = true ->
               ~ exports (fst tab') (snd tab') key ty' v')
      | RErr => False
      | RUndef => False
      end).
    { intros N. destruct (resolve_loop ifunc libs key) as [a| |]; [|exact IH|exact IH].
      destruct IH as [(n & o0 & tab0 & ty & v & E1 & E2 & Sh & Ex & Ea & Hk)|[Ea Hk]].
      - left. exists (S n), o0, tab0, ty, v. cbn [nth_error]. repeat split; auto.
        intros [|k] o' tab' ty' v' Lk K1 K2 K3; cbn [nth_error] in *.
        + apply some_inj in K1. apply some_inj in K2. subst. apply N. exact K3.
        + eapply (Hk k); eauto. lia.
      - right. split; [exact Ea|]. intros [|k] o' tab' ty' v' K1 K2 K3; cbn [nth_error] in *.
        + apply some_inj in K1. apply some_inj in K2. subst. apply N. exact K3.
        + eapply (Hk k); eauto. }
    destruct (l_shared o) eqn:Sh; cbn [negb].
    2:{ apply Skip. discriminate. }
    pose proof (lib_single qs o tab key Q H Sk) as L.
    destruct (resolve_single (l_syms o) key) as [[ty v]| |]; [| |exact L].
    + assert (R : (if ty =? STT_GNU_IFUNC
                   then match ifunc (vaddr2addr (l_vmas o) v) with
                        | Some a' => ROk a' | None => ROk 0 end
                   else ROk (vaddr2addr (l_vmas o) v)) = ROk (final_addr ifunc o ty v)).
      { unfold final_addr. destruct (ty =? STT_GNU_IFUNC); [|reflexivity].
        destruct (ifunc _); reflexivity. }
      rewrite R. left. exists 0%nat, o, tab, ty, v. cbn [nth_error]. repeat split; auto.
      intros k ? ? ? ? Lk. lia.
    + apply Skip. intros _. exact L.
Qed.

Lemma cut_at_spec s : ~ In 64 (cut_at s) /\ (s = cut_at s \/ exists r, s = cut_at s ++ 64 :: r).
Proof.
  induction s as [|c s [IH1 IH2]]; cbn [cut_at]; [split; [intros []|left; reflexivity]|].
  destruct (Z.eqb_spec c 64) as [->|N].
  - split; [intros []|]. right. exists s. reflexivity.
  - split.
    + cbn. intros [E|E]; [lia|auto].
    + destruct IH2 as [E|[r E]]; [left; cbn; congruence|right]. exists r. cbn. congruence.
Qed.

(** ** A sorting function that meets the contract *)

Fixpoint insert {A} (cmp : A -> A -> Z) (x : A) (l : list A) : list A :=
  match l with
  | [] => [x]
  | y :: r => if cmp x y <=? 0 then x :: l else y :: insert cmp x r
  end.
Definition isort : sorter := fun A cmp l => fold_right (insert cmp) [] l.

Lemma insert_perm {A} cmp (x : A) l : Permutation (x :: l) (insert cmp x l).
Proof.
  induction l as [|y l IH]; cbn [insert]; [apply Permutation_refl|].
  destruct (cmp x y <=? 0); [apply Permutation_refl|].
  eapply perm_trans; [apply perm_swap|]. apply perm_skip. exact IH.
Qed.

Lemma isort_perm {A} cmp (l : list A) : Permutation l (isort A cmp l).
Proof.
  induction l as [|x l IH]; cbn; [apply perm_nil|].
  eapply perm_trans; [apply perm_skip, IH|]. apply insert_perm.
Qed.

Lemma isort_ok : qsort_ok isort.
Proof.
  intros A cmp l [T R]. split; [apply isort_perm|].
  assert (G : forall k, incl k l -> StronglySorted (fun a b => cmp a b <= 0) (isort A cmp k)).
  { induction k as [|x k IH]; intros I; cbn; [constructor|].
    assert (Ik : incl k l) by (intros y Hy; apply I; right; exact Hy).
    specialize (IH Ik). fold (isort A cmp k).
    assert (Is : incl (isort A cmp k) l).
    { intros y Hy. apply Ik. eapply Permutation_in; [apply Permutation_sym, isort_perm|exact Hy]. }
    assert (Ix : In x l) by (apply I; left; reflexivity).
    clear I Ik. revert IH Is. generalize (isort A cmp k). intros s.
    induction s as [|y s IHs]; intros S Is; cbn [insert].
    - constructor; [constructor|constructor].
    - inversion S as [|? ? S' F]; subst. assert (Iy : In y l) by (apply Is; left; reflexivity).
      assert (Is' : incl s l) by (intros z Hz; apply Is; right; exact Hz).
      destruct (Z.leb_spec (cmp x y) 0) as [C|C].
      + constructor; [exact S|]. constructor; [exact C|].
        rewrite Forall_forall in *. intros z Hz. apply (R x y z); auto.
      + constructor; [apply IHs; auto|]. rewrite Forall_forall in *. intros z Hz.
        assert (Hz' : In z (x :: s)).
        { eapply Permutation_in; [apply Permutation_sym, insert_perm|exact Hz]. }
        destruct Hz' as [<-|Hz']; [|apply F; exact Hz'].
        destruct (T x y Ix Iy) as [Q|Q]; [lia|exact Q]. }
  apply G, incl_refl.
Qed.
