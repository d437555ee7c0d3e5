(** Proofs about kpatch_strip. *)
From Coq Require Import ZArith List Bool Lia ZifyBool ZifyNat String.
From Verif Require Import Base BaseProofs RelocModel EngineModel TextModel TextProofs GotProofs StorageModel StripModel StripSpec.
Import ListNotations.
Open Scope list_scope.
Open Scope Z_scope.

Lemma contains_iff (s p : text) : contains s p = true <-> exists a b, s = a ++ p ++ b.
Proof.
  split; [|intros (a & b & ->); apply contains_app].
  assert (P : forall p s : text, prefix_of p s = true -> exists b, s = p ++ b).
  { intros q. induction q as [|c q IH]; intros t H; [exists t; reflexivity|]. destruct t as [|d t]; [discriminate|].
    cbn [prefix_of] in H. apply andb_true_iff in H as [H1 H2]. destruct (IH _ H2) as [b ->]. exists b. cbn [app]. f_equal. lia. }
  unfold contains. induction s as [|c s IH]; cbn [strstr]; intros H.
  - destruct (prefix_of p []) eqn:E; [|discriminate]. destruct (P _ _ E) as [b ->]. exists [], b. reflexivity.
  - destruct (prefix_of p (c :: s)) eqn:E.
    + destruct (P _ _ E) as [b ->]. exists [], b. reflexivity.
    + destruct (strstr s p) eqn:E2; [|discriminate]. destruct (IH eq_refl) as (a & b & ->). exists (c :: a), b. reflexivity.
Qed.
Lemma need_iff n : need_section n = true <-> wanted n.
Proof.
  unfold need_section, wanted. rewrite !orb_true_iff, contains_iff, !same_spec. tauto.
Qed.
Lemma need_not n : need_section n = false <-> ~ wanted n.
Proof. rewrite <- need_iff. destruct (need_section n); split; intros; congruence. Qed.

Lemma strip_one_stripped off s s' o : strip_one off s = Some (s', o) -> stripped s s'.
Proof.
  unfold strip_one, stripped. set (oo := match off with Some _ => _ | None => _ end). clearbody oo.
  destruct (need_section (s_name s)) eqn:N.
  - apply need_iff in N. destruct (same (s_name s) (str ".kpatch.info")) eqn:K.
    + destruct (check_info_len _); [discriminate|]. intros H. injection H as <- <-. apply same_spec in K.
      cbn [s_name s_type s_flags s_addr s_link s_info s_align s_data s_size].
      do 5 (split; [reflexivity|]). split; [|intros X; contradiction]. intros _. do 2 (split; [reflexivity|]).
      split; [intros X; contradiction|]. intros _ bs D Sz B. rewrite D. split; [reflexivity|]. rewrite Sz. unfold LAST_SIZE, u64.
      apply Z.mod_small. unfold zlen in *. lia.
    + intros H. injection H as <- <-.
      cbn [s_name s_type s_flags s_addr s_link s_info s_align s_data s_size].
      do 5 (split; [reflexivity|]). split; [|intros X; contradiction]. intros _. do 2 (split; [reflexivity|]).
      split; [intros _; split; reflexivity|]. intros X. apply same_spec in X. congruence.
  - intros H. injection H as <- <-. apply need_not in N.
    cbn [s_name s_type s_flags s_addr s_link s_info s_align s_data s_size].
    do 5 (split; [reflexivity|]). split; [intros X; contradiction|]. intros _. repeat split.
Qed.
Lemma strip_secs_stripped off ss ss' o : strip_secs off ss = Some (ss', o) -> Forall2 stripped ss ss'.
Proof.
  revert off ss' o. induction ss as [|s ss IH]; intros off ss' o H; cbn [strip_secs] in H.
  - injection H as <- <-. constructor.
  - destruct (strip_one off s) as [[s' o1]|] eqn:E; [|discriminate].
    destruct (strip_secs (Some o1) ss) as [[r o2]|] eqn:E2; [|discriminate]. injection H as <- <-.
    constructor; [exact (strip_one_stripped _ _ _ _ E)|exact (IH _ _ _ E2)].
Qed.

(** Layout *)
Definition room (ss : list sec) : Z := fold_right (fun s t => s_size s + s_align s + 24 + t) 0 ss.
Definition aligned (s : sec) : Prop := exists k, 0 <= k < 64 /\ s_align s = 2 ^ k.
Lemma room_pos ss : Forall (fun s => aligned s /\ 0 <= s_size s) ss -> 0 <= room ss.
Proof.
  induction 1 as [|s ss [(k & Hk & A) Hs] F IH]; cbn [room fold_right]; [lia|]. rewrite A. pose proof (Z.pow_pos_nonneg 2 k ltac:(lia) ltac:(lia)).
  unfold room in IH. lia.
Qed.
Lemma strip_one_place lo off s s' o : strip_one off s = Some (s', o) -> aligned s -> 0 <= s_size s ->
  match off with Some x => x = lo | None => lo = s_offset s /\ s_offset s mod s_align s = 0 end ->
  0 <= lo -> lo + s_size s + s_align s + 24 < 2 ^ 64 ->
  o <= lo + s_size s + s_align s + 24 /\ lo <= s_offset s' /\ s_offset s' mod s_align s' = 0 /\
  (wanted (s_name s) -> s_offset s' + s_size s' = o /\ 0 <= s_size s') /\ (~ wanted (s_name s) -> lo <= o).
Proof.
  intros H (k & Hk & A) Hs Hoff H0 Hb.
  set (oo := match off with Some x => round_up x (s_align s) | None => s_offset s end) in *.
  assert (B : lo <= oo <= lo + s_align s /\ oo mod s_align s = 0).
  { unfold oo. pose proof (Z.pow_pos_nonneg 2 k ltac:(lia) ltac:(lia)) as Pk. rewrite A in *. destruct off as [x|].
    - subst x. pose proof (round_up_bounds lo k ltac:(lia) ltac:(lia) Hk). lia.
    - destruct Hoff as [-> M]. lia. }
  assert (U1 : u64 (oo + s_size s) = oo + s_size s) by (unfold u64; apply Z.mod_small; lia).
  assert (U2 : u64 (oo + s_size s + 24) = oo + s_size s + 24) by (unfold u64; apply Z.mod_small; lia).
  assert (U3 : u64 (s_size s + 24) = s_size s + 24) by (unfold u64; apply Z.mod_small; lia).
  unfold strip_one in H. fold oo in H. destruct (need_section (s_name s)) eqn:N.
  - apply need_iff in N. destruct (same (s_name s) (str ".kpatch.info")).
    + destruct (check_info_len _); [discriminate|]. injection H as <- <-. cbn [s_offset s_align s_size].
      unfold LAST_SIZE. rewrite U1, U2, U3. repeat split; try lia; try tauto.
    + injection H as <- <-. cbn [s_offset s_align s_size]. rewrite U1. repeat split; try lia; try tauto.
  - apply need_not in N. injection H as <- <-. cbn [s_offset s_align s_size]. repeat split; try lia; try tauto.
Qed.
Lemma strip_secs_laid ss : forall off ss' o lo, strip_secs off ss = Some (ss', o) -> Forall (fun s => aligned s /\ 0 <= s_size s) ss ->
  match off, ss with Some x, _ => x = lo | None, s :: _ => lo = s_offset s /\ s_offset s mod s_align s = 0 | None, [] => False end ->
  0 <= lo -> lo + room ss + 8 < 2 ^ 64 ->
  exists end_, o = Some end_ /\ laid lo ss' end_ /\ lo <= end_ <= lo + room ss.
Proof.
  induction ss as [|s ss IH]; intros off ss' o lo H F Hoff H0 Hb; cbn [strip_secs] in H.
  - injection H as <- <-. destruct off as [x|]; [|contradiction]. subst x. exists lo. cbn [room fold_right]. split; [reflexivity|]. split; [constructor; lia|lia].
  - destruct (strip_one off s) as [[s' o1]|] eqn:E; [|discriminate].
    destruct (strip_secs (Some o1) ss) as [[r o2]|] eqn:E2; [|discriminate]. injection H as <- <-.
    inversion F as [|? ? [Al Sz] F']; subst. pose proof (room_pos _ F') as Rp. cbn [room fold_right] in Hb. fold (room ss) in Hb.
    assert (Hoff' : match off with Some x => x = lo | None => lo = s_offset s /\ s_offset s mod s_align s = 0 end) by (destruct off; exact Hoff).
    destruct (strip_one_place lo off s s' o1 E Al Sz Hoff' H0 ltac:(lia)) as (P1 & P2 & P3 & P4 & P5).
    pose proof (strip_one_stripped _ _ _ _ E) as (Nm & _).
    assert (L1 : lo <= o1).
    { destruct (need_section (s_name s)) eqn:N; [apply need_iff in N; destruct (P4 N); lia|apply need_not in N; auto]. }
    destruct (IH (Some o1) r o2 o1 E2 F' eq_refl ltac:(lia) ltac:(lia)) as (e & -> & L & Le).
    exists e. split; [reflexivity|]. split; [|cbn [room fold_right]; fold (room ss); lia].
    destruct (need_section (s_name s)) eqn:N.
    + apply need_iff in N. destruct (P4 N) as [P4a P4b]. apply laid_in; auto; [unfold in_file; rewrite Nm; exact N|]. rewrite P4a. exact L.
    + apply need_not in N. apply laid_out; [unfold in_file; rewrite Nm; exact N|].
      assert (W : forall a b l h, a <= b -> laid b l h -> laid a l h).
      { clear. intros a b l h Hab Hl. revert a Hab. induction Hl; intros a Hab; [apply laid_nil; lia|apply laid_in; auto; lia|apply laid_out; auto]. }
      exact (W _ _ _ _ L1 L).
Qed.

(** ** Undoing the link *)
Lemma sub_add a x : 0 <= x < 2 ^ 64 -> (u64 (x - a) + a) mod 2 ^ 64 = x.
Proof.
  intros H. unfold u64. rewrite Zplus_mod_idemp_l. replace (x - a + a) with x by lia. apply Z.mod_small, H.
Qed.
Lemma addr_of_sec secs n a : sec_addr secs n a -> addr_of secs n = a.
Proof. intros (s & E & <-). unfold addr_of. rewrite E. reflexivity. Qed.
Lemma rel_one_same secs s : same_section s (rel_one secs s) /\ s_addr (rel_one secs s) = s_addr s.
Proof.
  unfold rel_one. destruct (s_type s =? SHT_RELA); [|split; [repeat split|reflexivity]].
  destruct (s_data s); [split; [repeat split|reflexivity]|]. destruct (_ =? 0); split; try reflexivity; repeat split.
Qed.
Lemma shift0 a rs : Forall (fun r => 0 <= r_offset r < 2 ^ 64) rs -> a = 0 -> Forall2 (relinked a) rs rs.
Proof.
  intros F ->. induction F as [|r rs Hr F IH]; constructor; [|exact IH].
  unfold relinked. rewrite Z.add_0_r. repeat split. apply Z.mod_small, Hr.
Qed.
Lemma shift1 a rs : Forall (fun r => 0 <= r_offset r < 2 ^ 64) rs -> Forall2 (relinked a) rs (map (shift_rela a) rs).
Proof.
  intros F. induction F as [|r rs Hr F IH]; constructor; [|exact IH].
  unfold relinked, shift_rela. cbn [r_offset r_type r_sym r_addend]. repeat split. apply sub_add, Hr.
Qed.
Lemma rel_one_data secs s : match s_data s with
  | CRelas rs => s_type s = SHT_RELA -> Forall (fun r => 0 <= r_offset r < 2 ^ 64) rs ->
      exists rs', s_data (rel_one secs s) = CRelas rs' /\ Forall2 (relinked (addr_of secs (s_info s))) rs rs'
  | CBytes bs => s_data (rel_one secs s) = CBytes bs end.
Proof.
  unfold rel_one. destruct (s_data s) as [bs|rs] eqn:D.
  - destruct (s_type s =? SHT_RELA); exact D.
  - intros T F. rewrite T, Z.eqb_refl. set (a := addr_of secs (s_info s)). destruct (a =? 0) eqn:A.
    + exists rs. split; [exact D|]. apply shift0; [exact F|lia].
    + exists (map (shift_rela a) rs). split; [reflexivity|]. apply shift1, F.
Qed.

(** Symbols *)
Lemma syms_all_Forall2 f ys ys' : syms_all f ys = Some ys' -> Forall2 (fun y y' => f y = Some y') ys ys'.
Proof.
  revert ys'. induction ys as [|y ys IH]; intros ys' H; cbn [syms_all] in H.
  - injection H as <-. constructor.
  - destruct (f y) as [y1|] eqn:E; [|discriminate]. destruct (syms_all f ys) as [r|]; [|discriminate]. injection H as <-. constructor; auto.
Qed.
Lemma skip_iff y : skip_sym y = true <-> free y.
Proof. unfold skip_sym, free, SHN_UNDEF, SHN_LORESERVE. rewrite !orb_true_iff, !Z.eqb_eq, Z.leb_le. tauto. Qed.
Lemma sym_one_spec secs y y' : sym_one secs y = Some y' -> 0 <= y_value y < 2 ^ 64 ->
  (free y -> y' = y) /\ (~ free y -> exists a, sec_addr secs (y_shndx y) a /\ resymbol a y y').
Proof.
  intros H V. unfold sym_one in H. destruct (skip_sym y) eqn:K.
  - apply skip_iff in K. injection H as <-. split; [reflexivity|contradiction].
  - assert (~ free y) by (rewrite <- skip_iff; congruence). split; [contradiction|]. intros _.
    destruct (nth_error secs (Z.to_nat (y_shndx y))) as [s|] eqn:N; [|discriminate]. exists (s_addr s). split; [exists s; auto|].
    destruct (s_addr s =? 0) eqn:A; injection H as <-; unfold resymbol, sym_value; cbn [y_name y_value y_size y_shndx y_type y_bind].
    + repeat split. replace (s_addr s) with 0 by lia. rewrite Z.add_0_r. apply Z.mod_small, V.
    + repeat split. apply sub_add, V.
Qed.

(** Mapping *)
Lemma mapi_nth {A B} (f : nat -> A -> B) i l j : nth_error (mapi f i l) j = option_map (f (i + j)%nat) (nth_error l j).
Proof.
  revert i j. induction l as [|x l IH]; intros i j; destruct j as [|j]; cbn [mapi nth_error option_map]; auto.
  - rewrite Nat.add_0_r. reflexivity.
  - rewrite IH. replace (S i + j)%nat with (i + S j)%nat by lia. reflexivity.
Qed.
Lemma find_from_spec name ss : forall ip k, find_from name ss ip = Some k ->
  (k < ip + length ss /\ ip <= k /\ exists s, nth_error ss (k - ip) = Some s /\ s_name s = name /\
     forall j t, nth_error ss j = Some t -> j < k - ip -> s_name t <> name)%nat
  \/ (k = ip + length ss /\ Forall (fun s => s_name s <> name) ss)%nat.
Proof.
  induction ss as [|s ss IH]; intros ip k H; cbn [find_from] in H; [discriminate|].
  destruct (same name (s_name s)) eqn:E.
  - apply same_spec in E. injection H as <-. left. split; [cbn [length]; lia|]. split; [lia|]. exists s. rewrite Nat.sub_diag.
    split; [reflexivity|]. split; [congruence|]. intros; lia.
  - assert (E' : s_name s <> name) by (intros X; rewrite <- X in E; rewrite (proj2 (same_spec _ _) eq_refl) in E; discriminate).
    destruct ss as [|t ss].
    + injection H as <-. right. cbn [length]. split; [lia|]. repeat constructor; exact E'.
    + destruct (IH (S ip) k H) as [(K1 & K2 & u & K3 & K4 & K5)|[K1 K2]].
      * left. cbn [length] in *. split; [lia|]. split; [lia|]. exists u. replace (k - ip)%nat with (S (k - S ip)) by lia.
        split; [exact K3|]. split; [exact K4|]. intros j v N L. destruct j as [|j]; [cbn [nth_error] in N; congruence|].
        exact (K5 j v N ltac:(lia)).
      * right. cbn [length] in *. split; [lia|]. constructor; auto.
Qed.
Lemma land_alloc f : Z.land f SHF_ALLOC =? 0 = false <-> Z.odd (f / 2) = true.
Proof.
  unfold SHF_ALLOC. rewrite <- Z.bit0_odd. change (f / 2) with (f / 2 ^ 1). rewrite Z.div_pow2_bits by lia. change (0 + 1) with 1.
  split; intros H.
  - destruct (Z.testbit f 1) eqn:E; [reflexivity|]. exfalso. apply Z.eqb_neq in H. apply H.
    apply Z.bits_inj'. intros n Hn. rewrite Z.land_spec, Z.bits_0. destruct (Z.eq_dec n 1) as [->|].
    + rewrite E. reflexivity.
    + change 2 with (2 ^ 1). rewrite Z.pow2_bits_false by lia. apply andb_false_r.
  - apply Z.eqb_neq. intros X. assert (Y : Z.testbit (Z.land f 2) 1 = false) by (rewrite X; apply Z.bits_0).
    rewrite Z.land_spec in Y. rewrite H in Y. discriminate.
Qed.
Lemma skipn_nth {A} (l : list A) i j : nth_error (skipn i l) j = nth_error l (i + j).
Proof. revert l. induction i as [|i IH]; intros l; [reflexivity|]. destruct l; [destruct j; reflexivity|apply IH]. Qed.
Lemma map_loop_pairs f orig patch : forall io ip l, map_loop f orig patch io ip = Some l ->
  Forall (fun p => exists s so, nth_error patch (fst p) = Some s /\ nth_error orig (snd p) = Some so /\ s_name s = s_name so /\ alloc so
    /\ (1 <= ip -> 1 <= fst p)%nat) l.
Proof.
  induction f as [|f IH]; intros io ip l H; cbn [map_loop] in H; [injection H as <-; constructor|].
  destruct (nth_error orig io) as [so|] eqn:O; [|injection H as <-; constructor].
  destruct (Z.land (s_flags so) SHF_ALLOC =? 0) eqn:A; [exact (IH _ _ _ H)|]. apply land_alloc in A.
  destruct (find_from _ _ _) as [k|] eqn:F; [|discriminate]. destruct (Nat.leb (length patch) k) eqn:Lk.
  - apply IH in H. eapply Forall_impl; [|exact H]. cbn beta. intros p (s & t & X1 & X2 & X3 & X4 & X5). exists s, t. repeat split; auto.
  - destruct (map_loop f orig patch (S io) (S k)) as [r|] eqn:R; [|discriminate]. injection H as <-. constructor.
    + cbn [fst snd]. apply Nat.leb_gt in Lk. destruct (find_from_spec _ _ _ _ F) as [(K1 & K2 & s & K3 & K4 & _)|[K1 _]].
      * exists s, so. rewrite skipn_nth in K3. replace (ip + (k - ip))%nat with k in K3 by lia. repeat split; auto. lia.
      * rewrite skipn_length in K1. assert (ip < length patch \/ length patch <= ip)%nat as [|] by lia; [lia|]. lia.
    + apply IH in R. eapply Forall_impl; [|exact R]. cbn beta. intros p (s & t & X1 & X2 & X3 & X4 & X5). exists s, t. repeat split; auto. intros; apply X5; lia.
Qed.
Lemma orig_of_in l i k : orig_of l i = Some k -> In (i, k) l.
Proof.
  unfold orig_of. destruct (find _ _) as [[a b]|] eqn:F; [|discriminate]. intros H. injection H as <-.
  apply find_some in F as [F1 F2]. cbn [fst] in F2. apply Nat.eqb_eq in F2. subst a. apply in_rev. exact F1.
Qed.
Lemma copy_addr_same orig l i s : same_section s (copy_addr orig l i s) /\ s_data (copy_addr orig l i s) = s_data s.
Proof.
  unfold copy_addr. destruct (orig_of l i) as [k|]; [|split; [repeat split|reflexivity]].
  destruct (nth_error orig k); split; try reflexivity; repeat split.
Qed.
(** The mapping finds every section when the original's are in the patch, in order. *)
Lemma within_weak {A} (x : A) a l : within (x :: a) l -> within a l.
Proof. intros H. remember (x :: a) as b eqn:E. revert a E. induction H; intros a0 E; [discriminate|injection E as -> ->; apply wi_skip; auto|apply wi_skip; auto]. Qed.
Lemma within_first (a : list text) x l : within (x :: a) l -> exists l1 l2, l = l1 ++ x :: l2 /\ ~ In x l1 /\ within a l2.
Proof.
  induction l as [|y l IH]; intros H; [inversion H|].
  destruct (list_eq_dec Z.eq_dec y x) as [->|N].
  - exists [], l. split; [reflexivity|]. split; [intros []|]. inversion H; subst; auto. eapply within_weak; eassumption.
  - inversion H; subst; [congruence|]. destruct (IH H2) as (l1 & l2 & -> & N1 & W). exists (y :: l1), l2. split; [reflexivity|].
    split; [|exact W]. intros [X|X]; [congruence|auto].
Qed.
Lemma find_from_first x ss : forall l1 l2 ip, map s_name ss = l1 ++ x :: l2 -> ~ In x l1 -> find_from x ss ip = Some (ip + length l1)%nat.
Proof.
  induction ss as [|s ss IH]; intros l1 l2 ip M N; [destruct l1; discriminate|]. cbn [find_from map] in *.
  destruct l1 as [|y l1]; cbn [app length] in *.
  - injection M as M1 M2. rewrite (proj2 (same_spec _ _)) by congruence. f_equal. lia.
  - injection M as M1 M2. destruct (same x (s_name s)) eqn:E; [apply same_spec in E; destruct N; left; congruence|].
    destruct ss as [|t ss]; [destruct l1; discriminate|]. rewrite (IH l1 l2 (S ip) M2) by (intros X; apply N; right; exact X). f_equal. lia.
Qed.
Definition allocb (s : sec) : bool := negb (Z.land (s_flags s) SHF_ALLOC =? 0).
Lemma allocb_iff s : allocb s = true <-> alloc s.
Proof. unfold allocb, alloc. rewrite <- land_alloc. destruct (_ =? 0); cbn [negb]; split; congruence. Qed.
Lemma skipn_cons {A} (l : list A) i x : nth_error l i = Some x -> skipn i l = x :: skipn (S i) l.
Proof. revert l. induction i as [|i IH]; intros l H; destruct l; try discriminate; [injection H as ->; reflexivity|exact (IH _ H)]. Qed.
Lemma map_skipn {A B} (f : A -> B) n l : map f (skipn n l) = skipn n (map f l).
Proof. revert l. induction n as [|n IH]; intros l; [reflexivity|]. destruct l; [reflexivity|]. apply IH. Qed.
Lemma skipn_skipn' {A} (l : list A) i j : skipn i (skipn j l) = skipn (j + i) l.
Proof. revert l. induction j as [|j IH]; intros l; [reflexivity|]. destruct l; [destruct i; reflexivity|apply IH]. Qed.
Lemma skipn_app_exact {A} (a : list A) x b : skipn (S (length a)) (a ++ x :: b) = b.
Proof. induction a as [|y a IH]; [reflexivity|exact IH]. Qed.
Lemma map_loop_within f orig patch : forall io ip, (length orig <= f + io)%nat -> (ip <= length patch)%nat ->
  within (map s_name (filter allocb (skipn io orig))) (map s_name (skipn ip patch)) ->
  exists l, map_loop f orig patch io ip = Some l /\ NoDup (map fst l) /\ Forall (fun p => (ip <= fst p)%nat) l /\
    forall j so, (io <= j)%nat -> nth_error orig j = Some so -> alloc so -> exists k, In (k, j) l.
Proof.
  induction f as [|f IH]; intros io ip Hf Hip W; cbn [map_loop].
  - exists []. repeat split; [constructor|constructor|]. intros j so L N. assert (nth_error orig j = None) by (apply nth_error_None; lia). congruence.
  - destruct (nth_error orig io) as [so|] eqn:O.
    2: { exists []. repeat split; [constructor|constructor|]. apply nth_error_None in O. intros j so L N. assert (nth_error orig j = None) by (apply nth_error_None; lia). congruence. }
    rewrite (skipn_cons _ _ _ O) in W. cbn [filter] in W. destruct (Z.land (s_flags so) SHF_ALLOC =? 0) eqn:A.
    + replace (allocb so) with false in W by (unfold allocb; rewrite A; reflexivity).
      destruct (IH (S io) ip ltac:(lia) Hip W) as (l & E & N1 & N2 & N3). exists l. repeat split; auto.
      intros j t L N Al. destruct (Nat.eq_dec j io) as [->|]; [|apply (N3 j t); auto; lia].
      rewrite O in N. injection N as <-. apply allocb_iff in Al. unfold allocb in Al. rewrite A in Al. discriminate.
    + replace (allocb so) with true in W by (unfold allocb; rewrite A; reflexivity). cbn [map] in W.
      destruct (within_first _ _ _ W) as (l1 & l2 & M & NI & W2).
      rewrite (find_from_first _ _ _ _ ip M NI).
      assert (Len : (ip + length l1 < length patch)%nat).
      { apply (f_equal (@length text)) in M. rewrite map_length, skipn_length, app_length in M. cbn [length] in M. lia. }
      rewrite (proj2 (Nat.leb_gt _ _) Len).
      destruct (IH (S io) (S (ip + length l1)) ltac:(lia) ltac:(lia)) as (l & E & N1 & N2 & N3).
      { replace (skipn (S (ip + length l1)) patch) with (skipn (S (length l1)) (skipn ip patch)) by (rewrite skipn_skipn'; f_equal; lia).
        rewrite (map_skipn s_name (S (length l1))), M, skipn_app_exact. exact W2. }
      rewrite E. eexists. split; [reflexivity|]. split.
      { cbn [map fst]. constructor; [|exact N1]. intros X. apply in_map_iff in X as (p & X1 & X2).
        rewrite Forall_forall in N2. specialize (N2 _ X2). lia. }
      split. { constructor; [cbn [fst]; lia|]. eapply Forall_impl; [|exact N2]. cbn beta. intros; lia. }
      intros j t L N Al. destruct (Nat.eq_dec j io) as [->|].
      * eexists. left. reflexivity.
      * destruct (N3 j t ltac:(lia) N Al) as [k K]. exists k. right. exact K.
Qed.
Lemma orig_of_nodup l i k : NoDup (map fst l) -> In (i, k) l -> orig_of l i = Some k.
Proof.
  intros N H. unfold orig_of. destruct (find _ _) as [[a b]|] eqn:F.
  - apply find_some in F as [F1 F2]. cbn [fst snd] in *. apply Nat.eqb_eq in F2. subst a. apply in_rev in F1. f_equal.
    revert N F1 H. clear. induction l as [|[x y] l IH]; intros N F1 H; [destruct H|]. cbn [map fst] in N. inversion N; subst.
    destruct F1 as [F1|F1], H as [H|H].
    + congruence.
    + injection F1 as -> ->. destruct H2. apply in_map_iff. exists (i, k). auto.
    + injection H as -> ->. destruct H2. apply in_map_iff. exists (i, b). auto.
    + auto.
  - exfalso. apply in_rev in H. pose proof (find_none _ _ F _ H) as X. cbn [fst] in X. rewrite Nat.eqb_refl in X. discriminate.
Qed.
Lemma undo_inv bias orig patch out : undo_link bias orig patch = Some out ->
  exists ys l, syms_all (sym_one (o_secs patch)) (o_syms patch) = Some ys /\ map_sections (o_secs orig) (o_secs patch) = Some l
  /\ o_secs out = mapi (copy_addr (o_secs orig) l) 0 (firstn 1 (o_secs patch) ++ map (rel_one (o_secs patch)) (tl (o_secs patch)))
  /\ (bias = false -> o_syms out = ys)
  /\ (bias = true -> exists y r r', ys = y :: r /\ syms_all (bias_one orig (o_secs patch)) r = Some r' /\ o_syms out = y :: r' \/ ys = [] /\ o_syms out = [])
  /\ o_type out = 1.
Proof.
  unfold undo_link. destruct (_ || _); [discriminate|]. destruct (syms_all (sym_one _) _) as [ys|]; [|discriminate].
  intros H. exists ys. destruct bias.
  - destruct ys as [|y r].
    + destruct (map_sections _ _) as [l|]; [|discriminate]. injection H as <-. exists l. cbn [o_secs o_syms o_type].
      do 3 (split; [reflexivity|]). split; [discriminate|]. split; [|reflexivity]. intros _.
      exists {| y_name := []; y_value := 0; y_size := 0; y_shndx := 0; y_type := 0; y_bind := 0 |}, [], []. right. auto.
    + destruct (syms_all (bias_one _ _) r) as [r'|] eqn:B; [|discriminate].
      destruct (map_sections _ _) as [l|]; [|discriminate]. injection H as <-. exists l. cbn [o_secs o_syms o_type].
      do 3 (split; [reflexivity|]). split; [discriminate|]. split; [|reflexivity]. intros _. exists y, r, r'. left. auto.
  - destruct (map_sections _ _) as [l|]; [|discriminate]. injection H as <-. exists l. cbn [o_secs o_syms o_type].
    do 3 (split; [reflexivity|]). split; [reflexivity|]. split; [discriminate|reflexivity].
Qed.
Lemma out_secs orig patch l i s : nth_error (o_secs patch) i = Some s -> (1 <= i)%nat ->
  nth_error (mapi (copy_addr (o_secs orig) l) 0 (firstn 1 (o_secs patch) ++ map (rel_one (o_secs patch)) (tl (o_secs patch)))) i
  = Some (copy_addr (o_secs orig) l i (rel_one (o_secs patch) s)).
Proof.
  intros H L. rewrite mapi_nth. cbn [Nat.add]. destruct (o_secs patch) as [|s0 ss]; [destruct i; discriminate|].
  destruct i as [|i]; [lia|]. cbn [firstn tl app nth_error] in *. rewrite nth_error_map, H. reflexivity.
Qed.
Lemma out_secs_inv orig patch l i s' :
  nth_error (mapi (copy_addr (o_secs orig) l) 0 (firstn 1 (o_secs patch) ++ map (rel_one (o_secs patch)) (tl (o_secs patch)))) i = Some s' ->
  (1 <= i)%nat -> exists s, nth_error (o_secs patch) i = Some s.
Proof.
  intros H L. rewrite mapi_nth in H. destruct (o_secs patch) as [|s0 ss]; [destruct i; discriminate|].
  destruct i as [|i]; [lia|]. cbn [firstn tl app nth_error] in *. rewrite nth_error_map in H. destruct (nth_error ss i) as [s|]; [exists s; reflexivity|discriminate].
Qed.
Lemma same_section_trans a b c : same_section a b -> same_section b c -> same_section a c.
Proof. unfold same_section. intuition congruence. Qed.
Lemma Forall2_impl_in {A B} (P Q : A -> B -> Prop) l l' : Forall2 P l l' -> (forall x y, In x l -> P x y -> Q x y) -> Forall2 Q l l'.
Proof. induction 1; intros H1; constructor; [apply H1; [left; reflexivity|assumption]|]. apply IHForall2. intros; apply H1; [right|]; assumption. Qed.

Lemma find_orig_spec y os o : find_orig y os = Some o -> In o os /\ y_name o = y_name y /\ y_type o = y_type y /\ y_bind o = y_bind y.
Proof.
  induction os as [|a os IH]; cbn [find_orig]; [discriminate|]. destruct (_ && _) eqn:E.
  - intros H. injection H as <-. rewrite !andb_true_iff, same_spec in E. destruct E as [[E1 E2] E3]. split; [left; reflexivity|]. split; [exact E1|lia].
  - intros H. destruct (IH H) as [I R]. split; [right; exact I|exact R].
Qed.
Lemma find_orig_none y os : find_orig y os = None -> forall o, In o os -> y_name o = y_name y -> y_type o = y_type y -> y_bind o <> y_bind y.
Proof.
  induction os as [|a os IH]; cbn [find_orig]; [intros _ o []|]. destruct (_ && _) eqn:E; [discriminate|]. intros H o [<-|I] N T B.
  - rewrite N, T, B, (proj2 (same_spec _ _) eq_refl), !Z.eqb_refl in E. discriminate.
  - exact (IH H o I N T B).
Qed.
Lemma within_refl {A} (l : list A) : within l l.
Proof. induction l; constructor; auto. Qed.
