(** Proofs about the patch store. *)
From Coq Require Import ZArith List Bool Lia ZifyBool ZifyNat Sorting.Sorted String.
From Verif Require Import Base BaseProofs RbModel RbSpec RbProofs StorageModel StorageSpec.
Import ListNotations.
Open Scope Z_scope.
Open Scope list_scope.

Lemma slice_some d off n : 0 <= off -> 0 <= n -> off + n <= zlen d -> exists bs, slice d off n = Some bs /\ zlen bs = n.
Proof.
  intros. unfold slice. replace (_ && _ && _) with true by lia. eexists. split; [reflexivity|].
  unfold zlen in *. rewrite firstn_length, skipn_length. lia.
Qed.
Lemma slice_inv d off n bs : slice d off n = Some bs -> 0 <= off /\ 0 <= n /\ off + n <= zlen d /\ zlen bs = n
  /\ bs = firstn (Z.to_nat n) (skipn (Z.to_nat off) d).
Proof.
  unfold slice. destruct ((0 <=? off) && (0 <=? n) && (off + n <=? zlen d)) eqn:E; [|discriminate].
  intros H. injection H as <-. unfold zlen in *. rewrite firstn_length, skipn_length.
  repeat split; lia.
Qed.
Lemma in_firstn (A : Type) n : forall (d : list A) b, In b (firstn n d) -> In b d.
Proof. induction n; intros [|x d] b; cbn; auto; try tauto. intros [->|H]; auto. Qed.
Lemma in_skipn (A : Type) n : forall (d : list A) b, In b (skipn n d) -> In b d.
Proof. induction n; intros [|x d] b; cbn; auto. Qed.
Lemma slice_bytes d off n bs : bytes_ok d -> slice d off n = Some bs -> bytes_ok bs.
Proof.
  intros Hd H. apply slice_inv in H. destruct H as (_ & _ & _ & _ & ->).
  unfold bytes_ok in *. rewrite Forall_forall in *. intros b Hb. apply Hd.
  eapply in_skipn, in_firstn; eauto.
Qed.
Lemma le_val_nonneg bs : bytes_ok bs -> 0 <= le_val bs.
Proof. induction bs as [|b bs IH]; intros H; cbn [le_val]; [lia|]. inversion H as [|? ? Hb Hr]; subst. unfold byte_ok in *. specialize (IH Hr). lia. Qed.
Lemma le_val_2 bs x : bytes_ok bs -> zlen bs = 2 -> 0 <= x < 256 -> (le_val bs = x <-> bs = [x; 0]).
Proof.
  intros Hb Hl Hx. destruct bs as [|a [|b [|c bs]]]; try (unfold zlen in Hl; cbn in Hl; lia).
  inversion Hb as [|? ? Ha H2]; inversion H2 as [|? ? Hb' H3]; subst. unfold byte_ok in *. cbn [le_val].
  split; intros E; [|injection E as -> ->; lia].
  assert (b = 0) by lia. subst. f_equal. lia.
Qed.

(** The header check: no access outside the file, and exactly the well-formed files
    pass. *)
Lemma verify_spec d : bytes_ok d -> 504 <= zlen d ->
  exists b, verify d = Some b /\ (b = true <-> well_formed d).
Proof.
  intros Hd Hs. unfold verify, read_le.
  destruct (slice_some d 0 8) as (mg & E1 & _); try lia.
  destruct (slice_some d off_total_size 4) as (tb & E2 & _); try (unfold off_total_size; lia).
  destruct (slice_some d off_kpatch_offset 4) as (kb & E3 & _); try (unfold off_kpatch_offset; lia).
  rewrite E1, E2, E3. unfold off_total_size, off_kpatch_offset in *.
  assert (Hk : 0 <= le_val kb) by (apply le_val_nonneg; eapply slice_bytes; eauto).
  unfold well_formed. set (M := str "KPATCH1" ++ [0]).
  destruct (list_eqb mg M) eqn:Em; cbn [negb].
  2:{ exists false. split; [reflexivity|]. split; [discriminate|]. intros (W & _).
      assert (mg = M) by congruence. apply list_eqb_eq in H. congruence. }
  apply list_eqb_eq in Em. subst mg.
  destruct (Z.ltb_spec (zlen d) (le_val tb)) as [C1|C1].
  { exists false. split; [reflexivity|]. split; [discriminate|].
    intros (_ & total & koff & tb' & kb' & W1 & W2 & W3 & _). assert (tb' = tb) by congruence. subst. lia. }
  destruct (Z.ltb_spec (zlen d) (le_val kb + 64)) as [C2|C2].
  { exists false. split; [reflexivity|]. split; [discriminate|].
    intros (_ & total & koff & tb' & kb' & _ & _ & _ & W1 & W2 & W3 & _). assert (kb' = kb) by congruence. subst. lia. }
  destruct (slice_some d (le_val kb) 4) as (id & E4 & _); try lia.
  destruct (slice_some d (le_val kb + 16) 2) as (ty & E5 & L5); try lia.
  destruct (slice_some d (le_val kb + 58) 2) as (se & E6 & L6); try lia.
  rewrite E4, E5, E6. eexists. split; [reflexivity|].
  rewrite !andb_true_iff, list_eqb_eq, !Z.eqb_eq.
  rewrite (le_val_2 ty 1), (le_val_2 se 64) by (auto; try lia; eapply slice_bytes; eauto).
  split.
  - intros [[-> ->] ->]. split; [exact E1|]. exists (le_val tb), (le_val kb), tb, kb. repeat split; auto.
  - intros (_ & total & koff & tb' & kb' & W1 & W2 & W3 & W4 & W5 & W6 & W7 & W8 & W9).
    assert (kb' = kb) by congruence. subst kb' koff. repeat split; congruence.
Qed.

(** set_level changes the four bytes of the level. *)
Lemma set_level_leveled d lv : 504 <= zlen d -> leveled d lv (set_level d lv).
Proof.
  intros Hs. unfold set_level, splice, leveled, off_user_level.
  assert (Hl : zlen (le_bytes 4 lv) = 4) by reflexivity.
  rewrite Hl. replace (_ && _) with true by lia.
  change (Z.to_nat 192 + length (le_bytes 4 lv))%nat with 196%nat. change (Z.to_nat 192) with 192%nat.
  set (b := le_bytes 4 lv) in *.
  assert (Hb : length b = 4%nat) by reflexivity. clearbody b.
  assert (L : length (firstn 192 d) = 192%nat) by (rewrite firstn_length; unfold zlen in *; lia).
  assert (L2 : length (firstn 192 d ++ b ++ skipn 196 d) = length d).
  { rewrite !app_length, L, Hb, skipn_length. unfold zlen in *. lia. }
  split; [exact L2|]. split.
  - unfold slice, zlen. rewrite L2. unfold zlen in Hs. replace (_ && _ && _) with true by lia.
    change (Z.to_nat 192) with 192%nat. change (Z.to_nat 4) with 4%nat. f_equal.
    replace (skipn 192 (firstn 192 d ++ b ++ skipn 196 d)) with (b ++ skipn 196 d).
    2:{ rewrite skipn_app, L, Nat.sub_diag, (skipn_all2 (firstn 192 d)) by lia. reflexivity. }
    replace 4%nat with (length b). rewrite firstn_app, Nat.sub_diag, firstn_all, firstn_O, app_nil_r. reflexivity.
  - intros i Hi. destruct Hi as [Hi|Hi].
    + rewrite app_nth1 by lia. rewrite <- (firstn_skipn 192 d) at 2. rewrite app_nth1 by lia. reflexivity.
    + rewrite app_nth2 by lia. rewrite L, app_nth2 by lia. rewrite Hb.
      rewrite <- (firstn_skipn 196 d) at 2. rewrite app_nth2 by (rewrite firstn_length; lia).
      assert (L3 : length (firstn 196 d) = 196%nat) by (rewrite firstn_length; unfold zlen in *; lia).
      rewrite L3. f_equal. lia.
Qed.
Lemma leveled_unique d lv d1 d2 : leveled d lv d1 -> leveled d lv d2 -> d1 = d2.
Proof.
  intros (L1 & S1 & N1) (L2 & S2 & N2). apply (nth_ext d1 d2 0 0); [congruence|].
  intros i Hi. destruct (Nat.lt_ge_cases i 192) as [C|C]; [rewrite N1, N2 by lia; reflexivity|].
  destruct (Nat.lt_ge_cases i 196) as [C2|C2]; [|rewrite N1, N2 by lia; reflexivity].
  rewrite <- S2 in S1. apply slice_inv in S2. destruct S2 as (_ & _ & B2 & _ & _).
  unfold slice in S1. unfold zlen in *.
  rewrite L1, L2 in *. replace (_ && _ && _) with true in S1 by lia. apply some_inj in S1.
  change (Z.to_nat 4) with 4%nat in S1. change (Z.to_nat 192) with 192%nat in S1.
  apply (f_equal (fun l => nth (i - 192) l 0)) in S1. rename S1 into Q. cbv beta in Q.
  assert (G : forall d : list Z, nth (i - 192) (firstn 4 (skipn 192 d)) 0 = nth i d 0).
  { intros x. rewrite <- (firstn_skipn 192 x) at 2.
    destruct (Nat.le_gt_cases 192 (length x)) as [D|D].
    - rewrite app_nth2 by (rewrite firstn_length; lia). rewrite firstn_length, Nat.min_l by lia.
      rewrite <- (firstn_skipn 4 (skipn 192 x)) at 2.
      destruct (Nat.lt_ge_cases (i - 192) (length (firstn 4 (skipn 192 x)))) as [F|F].
      + rewrite app_nth1 by lia. reflexivity.
      + rewrite (nth_overflow (firstn 4 _)) by lia.
        rewrite nth_overflow; [reflexivity|]. rewrite firstn_skipn.
        rewrite firstn_length in F. rewrite skipn_length in *. lia.
    - rewrite skipn_all2 by lia. rewrite app_nil_r. rewrite nth_overflow by (cbn; lia).
      rewrite nth_overflow by (rewrite firstn_length; lia). reflexivity. }
  rewrite !G in Q. exact Q.
Qed.

Lemma stored_unique fs bid d1 d2 : stored fs bid d1 -> stored fs bid d2 -> d1 = d2.
Proof.
  intros H1 H2.
  destruct H1 as [a a' s lv C1 W1 K1 S1 V1 P1 Q1|a N1 C1 W1], H2 as [b b' s' lv' C2 W2 K2 S2 V2 P2 Q2|b N2 C2 W2].
  - destruct C1, C2. assert (a = b) by congruence. assert (s = s') by congruence. subst.
    eapply leveled_unique; eauto.
  - destruct (N2 a C1).
  - destruct (N1 b C2).
  - destruct C1, C2. congruence.
Qed.

Lemma open_patch_spec fs bid : fs_ok fs ->
  match open_patch fs bid with
  | OErr => forall d, ~ stored fs bid d
  | OFound d lv => stored fs bid d
  | OBad => False
  end.
Proof.
  intros Hf. unfold open_patch, openat_file, open_fd.
  fold (path_latest bid). 
  assert (Cand : forall p d, fs_file fs p = Some d -> (zlen d <? hdr_size) = false -> candidate fs p d).
  { intros p d H1 H2. split; [exact H1|]. unfold hdr_size in H2. lia. }
  destruct (fs_file fs (path_latest bid)) as [d|] eqn:E1.
  - destruct (zlen d <? hdr_size) eqn:Es.
    + (* too short: falls through *)
      assert (N : forall d0, ~ candidate fs (bid ++ str "/latest/kpatch.bin") d0).
      { intros d0 [Q1 Q2]. fold (path_latest bid) in Q1. assert (d0 = d) by congruence. subst. unfold hdr_size in Es. lia. }
      destruct (fs_file fs (path_plain bid)) as [d2|] eqn:E2.
      * destruct (zlen d2 <? hdr_size) eqn:Es2.
        -- intros d0 H. inversion H as [? ? ? ? C|? ? C]; subst; [exact (N _ C)|].
           destruct C as [Q1 Q2]. fold (path_plain bid) in Q1. assert (d0 = d2) by congruence. subst. unfold hdr_size in Es2. lia.
        -- destruct (verify_spec d2 (Hf _ _ E2)) as (b & -> & Hb); [unfold hdr_size in Es2; lia|].
           destruct b.
           ++ apply via_plain; auto. apply Hb. reflexivity.
           ++ intros d0 H. inversion H as [? ? ? ? C|? ? C W]; subst; [exact (N _ C)|].
              destruct C as [Q1 Q2]. fold (path_plain bid) in Q1. assert (d0 = d2) by congruence. subst.
              apply Hb in W. discriminate.
      * intros d0 H. inversion H as [? ? ? ? C|? ? C]; subst; [exact (N _ C)|].
        destruct C as [Q1 Q2]. fold (path_plain bid) in Q1. congruence.
    + destruct (verify_spec d (Hf _ _ E1)) as (b & -> & Hb); [unfold hdr_size in Es; lia|].
      assert (C0 : candidate fs (bid ++ str "/latest/kpatch.bin") d) by (apply Cand; auto).
      assert (U : forall d0, candidate fs (bid ++ str "/latest/kpatch.bin") d0 -> d0 = d).
      { intros d0 [Q1 Q2]. fold (path_latest bid) in Q1. congruence. }
      destruct b.
      * unfold readlink_patchlevel. destruct (fs_link fs (path_latest_dir bid)) as [s|] eqn:El.
        -- destruct ((0 <? zlen s) && (zlen s <? 32)) eqn:Ez.
           ++ destruct (atoi (upto_nul s) <? 0) eqn:Ea.
              ** intros d0 H. inversion H as [d1 d1' s0 lv C W K S V P Q|d1 N]; subst.
                 --- fold (path_latest_dir bid) in K. assert (s0 = s) by congruence. subst. lia.
                 --- exact (N _ C0).
              ** eapply via_latest; eauto; try apply Hb; auto; try lia. apply set_level_leveled. unfold hdr_size in Es. lia.
           ++ intros d0 H. inversion H as [d1 d1' s0 lv C W K S V P Q|d1 N]; subst.
              ** fold (path_latest_dir bid) in K. assert (s0 = s) by congruence. subst. lia.
              ** exact (N _ C0).
        -- intros d0 H. inversion H as [d1 d1' s0 lv C W K S V P Q|d1 N]; subst.
           ++ fold (path_latest_dir bid) in K. congruence.
           ++ exact (N _ C0).
      * intros d0 H. inversion H as [d1 d1' s0 lv C W K S V P Q|d1 N]; subst.
        -- apply U in C. subst. apply Hb in W. discriminate.
        -- exact (N _ C0).
  - assert (N : forall d0, ~ candidate fs (bid ++ str "/latest/kpatch.bin") d0).
    { intros d0 [Q1 Q2]. fold (path_latest bid) in Q1. congruence. }
    destruct (fs_file fs (path_plain bid)) as [d2|] eqn:E2.
    + destruct (zlen d2 <? hdr_size) eqn:Es2.
      * intros d0 H. inversion H as [? ? ? ? C|? ? C]; subst; [exact (N _ C)|].
        destruct C as [Q1 Q2]. fold (path_plain bid) in Q1. assert (d0 = d2) by congruence. subst. unfold hdr_size in Es2. lia.
      * destruct (verify_spec d2 (Hf _ _ E2)) as (b & -> & Hb); [unfold hdr_size in Es2; lia|].
        destruct b.
        -- apply via_plain; auto. apply Hb. reflexivity.
        -- intros d0 H. inversion H as [? ? ? ? C|? ? C W]; subst; [exact (N _ C)|].
           destruct C as [Q1 Q2]. fold (path_plain bid) in Q1. assert (d0 = d2) by congruence. subst.
           apply Hb in W. discriminate.
    + intros d0 H. inversion H as [? ? ? ? C|? ? C]; subst; [exact (N _ C)|].
      destruct C as [Q1 Q2]. fold (path_plain bid) in Q1. congruence.
Qed.

(** ** The tree of the store *)
Lemma bid_orders : orders strcmp str_ok.
Proof.
  constructor.
  - intros a b Ha Hb. apply strcmp_eq; auto.
  - intros a b _ _. rewrite (strcmp_antisym a b). lia.
  - intros a b c. apply strcmp_trans.
Qed.
Definition tgood : tree sp -> Prop := good sp (list Z) sp_bid strcmp str_ok.
Lemma tgood_leaf : tgood Leaf.
Proof. apply good_leaf. Qed.
Lemma tsearch t bid : tgood t -> str_ok bid ->
  forall p, search cmp_buildid t bid = Some p <-> In p (elements t) /\ sp_bid p = bid.
Proof. intros Ht Hb p. apply (search_good sp (list Z) sp_bid strcmp str_ok bid_orders t bid Ht Hb p). Qed.
Lemma tinsert t p : tgood t -> str_ok (sp_bid p) -> search cmp_buildid t (sp_bid p) = None ->
  exists t', insert cmp_buildid t p (sp_bid p) = Some (t', None) /\ tgood t'
    /\ forall q, In q (elements t') <-> q = p \/ In q (elements t).
Proof.
  intros Ht Hb Hs.
  pose proof (insert_good sp (list Z) sp_bid strcmp str_ok bid_orders t p Ht Hb) as I.
  change (cmp sp_bid strcmp) with cmp_buildid in I. rewrite Hs in I.
  destruct I as (t' & I1 & I2 & a & b & I3 & I4). exists t'. split; [exact I1|]. split; [exact I2|].
  intros q. rewrite I4, I3, !in_app_iff. cbn [In]. intuition congruence.
Qed.

Lemma path_len bid : zlen (path_latest bid) = zlen bid + 18.
Proof. unfold path_latest, zlen. rewrite app_length. change (length (str "/latest/kpatch.bin")) with 18%nat. lia. Qed.

(** One lookup, when nothing is loaded that came from elsewhere. *)
Definition loaded_only (t : tree sp) : Prop :=
  forall p, In p (elements t) -> exists d, sp_data p = Some d /\ 0 <= sp_size p.

Lemma load_step fs ok t bid r t' : fs_ok fs -> bid_ok bid -> tgood t ->
  load_patch fs ok t bid = (r, t') ->
  (exists p, In p (elements t) /\ sp_bid p = bid /\ t' = t
     /\ r = if 0 <=? sp_size p then LFound (sp_data p) else LNotFound)
  \/ ((forall p, In p (elements t) -> sp_bid p <> bid) /\ t' = t /\ r = LErr
      /\ (ok = false \/ forall d, ~ stored fs bid d))
  \/ ((forall p, In p (elements t) -> sp_bid p <> bid) /\ ok = true /\ tgood t' /\
      exists d p, stored fs bid d /\ r = LFound (Some d) /\ sp_bid p = bid /\ sp_data p = Some d /\ 0 <= sp_size p
        /\ forall q, In q (elements t') <-> q = p \/ In q (elements t)).
Proof.
  intros Hf [Hb1 Hb2] Ht. unfold load_patch, get_patch.
  pose proof (tsearch t bid Ht Hb1) as Q.
  destruct (search cmp_buildid t bid) as [p|] eqn:Es.
  - intros H. injection H as <- <-. left. destruct (proj1 (Q p) eq_refl) as [Q1 Q2]. exists p. auto.
  - assert (N : forall p, In p (elements t) -> sp_bid p <> bid).
    { intros p Hp E. destruct (Q p) as [_ Q']. discriminate Q'; auto. }
    destruct ok; cbn [negb].
    2:{ intros H. injection H as <- <-. right; left. auto. }
    rewrite path_len. replace (96 <=? zlen bid + 18) with false by lia.
    pose proof (open_patch_spec fs bid Hf) as O.
    destruct (open_patch fs bid) as [|d lv|]; [| |contradiction].
    + intros H. injection H as <- <-. right; left. auto.
    + replace (41 <=? zlen bid) with false by lia.
      set (p := {| sp_bid := bid; sp_size := zlen d; sp_data := Some d; sp_level := lv |}).
      destruct (tinsert t p Ht Hb1 Es) as (t1 & I1 & I2 & I3).
      change (sp_bid p) with bid in I1. rewrite I1.
      intros H. injection H as <- <-. right; right. split; [exact N|]. split; [reflexivity|]. split; [exact I2|].
      exists d, p. split; [exact O|]. cbn [sp_data sp_size p sp_bid].
      assert (0 <= zlen d) by (unfold zlen; lia).
      split; [replace (0 <=? zlen d) with true by lia; reflexivity|]. auto.
Qed.

(** Constant file system: every answer is the pure one. *)
Definition pure_answer (fs : fsys) (ok : bool) (bid : list Z) (r : load_res) : Prop :=
  (exists d, r = LFound (Some d) /\ stored fs bid d)
  \/ (r = LErr /\ (ok = false \/ forall d, ~ stored fs bid d)).

Lemma loads_const fs : fs_ok fs -> forall cs t,
  tgood t -> (forall p, In p (elements t) -> exists d, sp_data p = Some d /\ 0 <= sp_size p /\ stored fs (sp_bid p) d) ->
  Forall (fun c => c_fs c = fs /\ bid_ok (c_bid c)) cs ->
  Forall2 (fun c r => pure_answer fs (c_ok c) (c_bid c) r) cs (run_loads t cs).
Proof.
  intros Hf. induction cs as [|c cs IH]; intros t Ht Hi Hc; cbn [run_loads]; [constructor|].
  inversion Hc as [|? ? [E Hb] Hc']; subst. clear Hc.
  destruct (load_patch (c_fs c) (c_ok c) t (c_bid c)) as [r t'] eqn:El.
  destruct (load_step _ _ _ _ _ _ Hf Hb Ht El)
    as [(p & P1 & P2 & -> & P3)|[(N & -> & -> & O)|(N & O & Ht' & d & p & S & -> & P1 & P2 & P3 & P4)]].
  - constructor; [|apply IH; auto]. destruct (Hi p P1) as (d & D1 & D2 & D3). left. exists d.
    rewrite P2 in D3. split; [|exact D3]. rewrite P3, D1. replace (0 <=? sp_size p) with true by lia. reflexivity.
  - constructor; [|apply IH; auto]. right. auto.
  - constructor; [left; eauto|]. apply IH; auto. intros q Hq. apply P4 in Hq. destruct Hq as [->|Hq]; [|auto].
    exists d. rewrite P1. auto.
Qed.

(** Once found, the same patch for the rest of the run. *)
Lemma loads_keep : forall cs t p, tgood t -> In p (elements t) -> 0 <= sp_size p ->
  Forall (fun c => fs_ok (c_fs c) /\ bid_ok (c_bid c)) cs ->
  Forall2 (fun c r => c_bid c = sp_bid p -> r = LFound (sp_data p)) cs (run_loads t cs).
Proof.
  induction cs as [|c cs IH]; intros t p Ht Hp Hz Hc; cbn [run_loads]; [constructor|].
  inversion Hc as [|? ? [Hf Hb] Hc']; subst. clear Hc.
  destruct (load_patch (c_fs c) (c_ok c) t (c_bid c)) as [r t'] eqn:El.
  destruct (load_step _ _ _ _ _ _ Hf Hb Ht El)
    as [(q & P1 & P2 & -> & P3)|[(N & -> & -> & O)|(N & O & Ht' & d & q & S & -> & P1 & P2 & P3 & P4)]].
  - constructor; [|apply IH; auto]. intros E.
    assert (q = p). { destruct Ht as (_ & T1 & T2). eapply (sorted_key sp (list Z) sp_bid strcmp str_ok bid_orders); eauto. congruence. }
    subst q. rewrite P3. replace (0 <=? sp_size p) with true by lia. reflexivity.
  - constructor; [|apply IH; auto]. intros E. exfalso. eapply N; eauto.
  - constructor; [intros E; exfalso; eapply N; eauto|]. apply IH; auto. apply P4. auto.
Qed.

Lemma loads_stable : forall cs t, tgood t -> loaded_only t ->
  Forall (fun c => fs_ok (c_fs c) /\ bid_ok (c_bid c)) cs ->
  forall i j ci cj d, (i <= j)%nat -> nth_error cs i = Some ci -> nth_error cs j = Some cj ->
  c_bid ci = c_bid cj -> nth_error (run_loads t cs) i = Some (LFound d) ->
  nth_error (run_loads t cs) j = Some (LFound d) /\ exists x, d = Some x.
Proof.
  induction cs as [|c cs IH]; intros t Ht Hl Hc i j ci cj d Hij Hi Hj Hb Hr; [destruct i; discriminate|].
  inversion Hc as [|? ? [Hf Hbo] Hc']; subst. cbn [run_loads] in *.
  destruct (load_patch (c_fs c) (c_ok c) t (c_bid c)) as [r t'] eqn:El.
  pose proof (load_step _ _ _ _ _ _ Hf Hbo Ht El) as LS.
  assert (Ht' : tgood t') by (destruct LS as [(q & P1 & P2 & -> & P3)|[(N & -> & -> & O)|(N & O & T & _)]]; auto).
  assert (Hl' : loaded_only t').
  { destruct LS as [(q & P1 & P2 & -> & P3)|[(N & -> & -> & O)|(N & O & T & x & q & S & Er & P1 & P2 & P3 & P4)]]; auto.
    intros p Hp. apply P4 in Hp. destruct Hp as [->|Hp]; eauto. }
  destruct i as [|i].
  - cbn in Hi. injection Hi as <-. cbn in Hr. injection Hr as ->.
    (* the node is in t' *)
    assert (exists p, In p (elements t') /\ sp_bid p = c_bid c /\ 0 <= sp_size p /\ sp_data p = d) as (p & Q1 & Q2 & Q3 & Q4).
    { destruct LS as [(q & P1 & P2 & -> & P3)|[(N & -> & E & O)|(N & O & T & x & q & S & Er & P1 & P2 & P3 & P4)]].
      - exists q. destruct (Hl q P1) as (x & X1 & X2). replace (0 <=? sp_size q) with true in P3 by lia.
        injection P3 as ->. auto.
      - discriminate.
      - exists q. injection Er as ->. split; [apply P4; auto|]. auto. }
    assert (X : exists x, d = Some x) by (destruct (Hl' p Q1) as (x & X1 & _); exists x; congruence).
    split; [|exact X].
    destruct j as [|j]; [reflexivity|]. cbn in Hj |- *.
    pose proof (loads_keep cs t' p Ht' Q1 Q3 Hc') as F.
    clear - F Hj Hb Q2 Q4. revert j Hj. induction F as [|a b l l' Hab F IHF]; intros j Hj; [destruct j; discriminate|].
    destruct j as [|j]; cbn in *.
    + injection Hj as ->. rewrite Hab by congruence. congruence.
    + auto.
  - destruct j as [|j]; [lia|]. cbn in Hi, Hj, Hr |- *. apply (IH t' Ht' Hl' Hc' i j ci cj d); auto. lia.
Qed.

(** ** stat *)
Lemma stat_patch_spec fs bid :
  match stat_patch fs bid with
  | TErr => forall r, ~ stat_stored fs bid r
  | TNotFound => stat_stored fs bid HNotFound
  | TFound n lv => stat_stored fs bid (HFound n lv)
  end.
Proof.
  unfold stat_patch, readlink_patchlevel.
  destruct (fs_stat fs (path_latest bid)) as [n| |] eqn:E1.
  - assert (N : forall r, stat_stored fs bid r -> exists s, fs_link fs (path_latest_dir bid) = Some s
        /\ 0 < zlen s < 32 /\ 0 <= atoi (upto_nul s)).
    { intros r H. inversion H as [n0 s H1 H2 H3 H4|n0 H1|H1]; subst; [eauto| |]; destruct (H1 n); exact E1. }
    destruct (fs_link fs (path_latest_dir bid)) as [s|] eqn:El.
    + destruct ((0 <? zlen s) && (zlen s <? 32)) eqn:Ez.
      * destruct (atoi (upto_nul s) <? 0) eqn:Ea.
        -- intros r H. destruct (N r H) as (s' & A1 & A2 & A3). injection A1 as <-. lia.
        -- apply st_latest; auto; lia.
      * intros r H. destruct (N r H) as (s' & A1 & A2 & A3). injection A1 as <-. lia.
    + intros r H. destruct (N r H) as (s' & A1 & A2 & A3). discriminate.
  - destruct (fs_stat fs (path_plain bid)) as [n| |] eqn:E2.
    + apply st_plain; [|exact E2]. intros m. fold (path_latest bid). congruence.
    + apply st_none; [|exact E2]. intros m. fold (path_latest bid). congruence.
    + intros r H. fold (path_latest bid) in *. inversion H as [n0 s H1 H2 H3 H4|n0 H1 H2|H1 H2]; subst; fold (path_latest bid) (path_plain bid) in *; congruence.
  - destruct (fs_stat fs (path_plain bid)) as [n| |] eqn:E2.
    + apply st_plain; [|exact E2]. intros m. fold (path_latest bid). congruence.
    + apply st_none; [|exact E2]. intros m. fold (path_latest bid). congruence.
    + intros r H. inversion H as [n0 s H1 H2 H3 H4|n0 H1 H2|H1 H2]; subst; fold (path_latest bid) (path_plain bid) in *; congruence.
Qed.

Definition pure_have (fs : fsys) (ok : bool) (bid : list Z) (r : have_res) : Prop :=
  stat_stored fs bid r \/ (r = HErr /\ (ok = false \/ forall x, ~ stat_stored fs bid x)).

Definition sizes_ok (fs : fsys) : Prop := forall p n, fs_stat fs p = SSize n -> 0 <= n.

Lemma haves_const fs : sizes_ok fs -> forall cs t, tgood t ->
  (forall p, In p (elements t) ->
     stat_stored fs (sp_bid p) (if 0 <=? sp_size p then HFound (sp_size p) (sp_level p) else HNotFound)) ->
  Forall (fun c => c_fs c = fs /\ bid_ok (c_bid c)) cs ->
  Forall2 (fun c r => pure_have fs (c_ok c) (c_bid c) r) cs (run_haves t cs).
Proof.
  intros Hz. induction cs as [|c cs IH]; intros t Ht Hi Hc; cbn [run_haves]; [constructor|].
  inversion Hc as [|? ? [E [Hb1 Hb2]] Hc']; subst. clear Hc.
  unfold have_patch, get_patch.
  pose proof (tsearch t (c_bid c) Ht Hb1) as Q.
  destruct (search cmp_buildid t (c_bid c)) as [p|] eqn:Es.
  - destruct (proj1 (Q p) eq_refl) as [Q1 Q2]. constructor; [|apply IH; auto].
    left. rewrite <- Q2. apply Hi. exact Q1.
  - destruct (c_ok c) eqn:Eok; cbn [negb].
    2:{ constructor; [right; rewrite Eok; auto|]. apply IH; auto. }
    rewrite path_len. replace (96 <=? zlen (c_bid c) + 18) with false by lia.
    replace (41 <=? zlen (c_bid c)) with false by lia.
    pose proof (stat_patch_spec (c_fs c) (c_bid c)) as S.
    assert (Ins : forall p, sp_bid p = c_bid c ->
      stat_stored (c_fs c) (c_bid c) (if 0 <=? sp_size p then HFound (sp_size p) (sp_level p) else HNotFound) ->
      Forall2 (fun c0 r => pure_have (c_fs c) (c_ok c0) (c_bid c0) r) (c :: cs)
        (let '(a, t') := let '(g, t') := match insert cmp_buildid t p (c_bid c) with Some (t', _) => (GPatch p, t') | None => (GBad, t) end in
           match g with GErr => (HErr, t') | GPatch p => (if 0 <=? sp_size p then HFound (sp_size p) (sp_level p) else HNotFound, t') | GBad => (HBad, t') end in
         a :: run_haves t' cs)).
    { intros p Ep Sp. destruct (tinsert t p Ht) as (t1 & I1 & I2 & I3); [rewrite Ep; auto|rewrite Ep; auto|].
      rewrite Ep in I1. rewrite I1. cbn. constructor; [left; exact Sp|]. apply IH; auto.
      intros q Hq. apply I3 in Hq. destruct Hq as [->|Hq]; [rewrite Ep; exact Sp|auto]. }
    destruct (stat_patch (c_fs c) (c_bid c)) as [| |n lv] eqn:Est.
    + constructor; [right; auto|]. apply IH; auto.
    + apply (Ins {| sp_bid := c_bid c; sp_size := -1; sp_data := None; sp_level := -1 |}); [reflexivity|exact S].
    + apply (Ins {| sp_bid := c_bid c; sp_size := n; sp_data := None; sp_level := lv |}); [reflexivity|].
      cbn [sp_size sp_level].
      assert (0 <= n). { inversion S as [n0 s H1|n0 H1 H2|]; subst; eapply Hz; eauto. }
      replace (0 <=? n) with true by lia. exact S.
Qed.

(** ** lookup_patches *)
Definition wanted (fs : fsys) (o : sobj) (x : option (option (list Z))) : Prop :=
  (exists bid d, so_elf o = true /\ so_kernel o = false /\ so_bid o = Some bid /\ stored fs bid d /\ x = Some (Some d))
  \/ (x = None /\ forall bid, so_elf o = true -> so_kernel o = false -> so_bid o = Some bid -> forall d, ~ stored fs bid d).

Lemma lookup_spec fs : fs_ok fs -> forall os t n l m, tgood t ->
  (forall p, In p (elements t) -> exists d, sp_data p = Some d /\ 0 <= sp_size p /\ stored fs (sp_bid p) d) ->
  Forall (fun o => forall bid, so_bid o = Some bid -> bid_ok bid) os ->
  lookup_patches fs t os n = (l, m) ->
  Forall2 (wanted fs) os l /\ m = n + zlen (filter (fun x => match x with Some _ => true | None => false end) l).
Proof.
  intros Hf. induction os as [|o os IH]; intros t n l m Ht Hi Ho H; cbn [lookup_patches] in H.
  - injection H as <- <-. split; [constructor|]. cbn. lia.
  - inversion Ho as [|? ? Hb Ho']; subst.
    destruct (negb (so_elf o) || so_kernel o) eqn:Ek.
    + destruct (lookup_patches fs t os n) as [l' m'] eqn:E. injection H as <- <-.
      destruct (IH _ _ _ _ Ht Hi Ho' E) as [I1 I2]. split; [constructor; auto|exact I2].
      right. split; [reflexivity|]. intros bid A B. rewrite A, B in Ek. discriminate.
    + destruct (so_bid o) as [bid|] eqn:Eb.
      2:{ destruct (lookup_patches fs t os n) as [l' m'] eqn:E. injection H as <- <-.
          destruct (IH _ _ _ _ Ht Hi Ho' E) as [I1 I2]. split; [constructor; auto|exact I2].
          right. split; [reflexivity|]. intros bid A B C. congruence. }
      destruct (load_patch fs true t bid) as [r t'] eqn:El.
      assert (Eo : so_elf o = true /\ so_kernel o = false) by (destruct (so_elf o), (so_kernel o); auto; discriminate).
      destruct Eo as [Eo1 Eo2].
      destruct (load_step _ _ _ _ _ _ Hf (Hb _ eq_refl) Ht El)
        as [(p & P1 & P2 & -> & P3)|[(N & -> & -> & O)|(N & O & Ht' & d & p & S & -> & P1 & P2 & P3 & P4)]].
      * destruct (Hi p P1) as (d & D1 & D2 & D3). rewrite D1 in P3.
        replace (0 <=? sp_size p) with true in P3 by lia. subst r.
        destruct (lookup_patches fs t os (n + 1)) as [l' m'] eqn:E. injection H as <- <-.
        destruct (IH _ _ _ _ Ht Hi Ho' E) as [I1 I2]. split.
        -- constructor; auto. left. rewrite P2 in D3. exists bid, d. auto.
        -- rewrite I2. cbn [filter]. unfold zlen. cbn [length]. lia.
      * destruct (lookup_patches fs t os n) as [l' m'] eqn:E. injection H as <- <-.
        destruct (IH _ _ _ _ Ht Hi Ho' E) as [I1 I2]. split; [constructor; auto|exact I2].
        right. split; [reflexivity|]. intros b A B C. destruct O as [O|O]; [discriminate|]. assert (b = bid) by congruence. subst b. exact O.
      * destruct (lookup_patches fs t' os (n + 1)) as [l' m'] eqn:E. injection H as <- <-.
        destruct (IH t' (n + 1) l' m' Ht') as [I1 I2]; auto.
        { intros q Hq. apply P4 in Hq. destruct Hq as [->|Hq]; [|auto]. exists d. rewrite P1. auto. }
        split.
        -- constructor; auto. left. exists bid, d. auto.
        -- rewrite I2. cbn [filter]. unfold zlen. cbn [length]. lia.
Qed.

(** ** The script *)
Lemma gate_exited is_dir ac n : 0 <= n < 256 ->
  script_gate is_dir ac (Exited n) = negb is_dir || match ac with AcNoent => true | AcFail => false | AcOk => n =? 0 end.
Proof.
  intros Hn. unfold script_gate, execute_script. destruct is_dir; cbn [negb orb]; [|reflexivity].
  destruct ac; try reflexivity.
  assert (E : w_ifexited (Z.shiftl n 8) = true).
  { unfold w_ifexited. apply Z.eqb_eq. rewrite Z.shiftl_mul_pow2 by lia.
    change 127 with (Z.ones 7). rewrite Z.land_ones by lia.
    replace (n * 2 ^ 8) with (n * 2 * 2 ^ 7) by lia. apply Z.mod_mul. lia. }
  rewrite E. unfold w_exitstatus. rewrite Z.shiftr_shiftl_l by lia. rewrite Z.shiftl_0_r.
  change 255 with (Z.ones 8). rewrite Z.land_ones, Z.mod_small by lia.
  destruct (Z.eqb_spec n 0); [subst; reflexivity|]. replace (- n <? 0) with true by lia. reflexivity.
Qed.
Lemma gate_signaled ac n : 1 <= n < 127 -> script_gate true ac (Signaled n) = match ac with AcNoent => true | _ => false end.
Proof.
  intros Hn. unfold script_gate, execute_script. destruct ac; try reflexivity.
  assert (L : Z.land n 127 = n) by (change 127 with (Z.ones 7); rewrite Z.land_ones, Z.mod_small by lia; reflexivity).
  unfold w_ifexited, w_ifsignaled, w_termsig. rewrite L. replace (n =? 0) with false by lia.
  unfold sext. rewrite Z.mod_small by lia. replace (n + 1 <? 2 ^ (8 - 1)) with true by lia.
  assert (1 <= Z.shiftr (n + 1) 1) by (rewrite Z.shiftr_div_pow2 by lia; change (2 ^ 1) with 2; apply Z.div_le_lower_bound; lia).
  replace (0 <? Z.shiftr (n + 1) 1) with true by lia. cbn [negb].
  replace (- n <? 0) with true by lia. reflexivity.
Qed.

(** ** The description *)
Lemma desc_spec pg : 1024 < pg -> forall os rest got alloc, zlen got <= alloc \/ (got = [] /\ alloc = 0) ->
  match desc_loop pg os rest got alloc with
  | DOk s => s = got ++ rest
  | DNull => In RFail os \/ In RMallocFail os
  | DBad => False
  | DMore => True
  end.
Proof.
  intros Hp. induction os as [|a os IH]; intros rest got alloc Ha; cbn [desc_loop]; [exact I|].
  assert (Hl : 0 <= zlen got) by (unfold zlen; lia).
  assert (Ha' : zlen got <= alloc) by (destruct Ha as [Ha|[-> ->]]; [exact Ha|cbn; lia]).
  set (alloc' := if alloc <=? zlen got + 1024 then alloc + pg else alloc).
  assert (Hb : zlen got + 1024 < alloc') by (subst alloc'; destruct (Z.leb_spec alloc (zlen got + 1024)); lia).
  assert (W : forall r : desc_res, match r with
     | DOk s => s = got ++ rest | DNull => In RFail os \/ In RMallocFail os | DBad => False | DMore => True end ->
     match r with
     | DOk s => s = got ++ rest | DNull => In RFail (a :: os) \/ In RMallocFail (a :: os) | DBad => False | DMore => True end).
  { intros [s| | |] H; auto. cbn. tauto. }
  destruct a.
  - destruct (alloc <=? zlen got + 1024); [cbn; auto|]. apply W. apply IH. auto.
  - apply W. apply IH. left. lia.
  - cbn. auto.
  - destruct rest as [|b rest].
    + replace (zlen got <? alloc') with true by lia. rewrite app_nil_r. reflexivity.
    + replace (alloc' - zlen got <? 1) with false by lia.
      set (k := Nat.min (S n) (Z.to_nat (alloc' - zlen got))).
      apply W.
      specialize (IH (skipn k (b :: rest)) (got ++ firstn k (b :: rest)) alloc').
      rewrite <- app_assoc, firstn_skipn in IH. apply IH. left.
      unfold zlen in *. rewrite app_length, firstn_length. subst k. lia.
Qed.
