(** Proofs about kpatch_strip's main. *)
From Coq Require Import String.
From Verif Require Import Base BaseProofs RelocModel RelocSpec TextModel StorageModel StripModel FixupModel FixupSpec FixupProofs StripMainModel StripMainSpec.
From Verif Require CmpProofs.
Open Scope list_scope.

(** ** The command line *)
Lemma begins_spec a : forall b, begins a b = true <-> exists r, b = a ++ r.
Proof.
  induction a as [|x a IH]; intros b; cbn [begins].
  - split; [intros _; exists b; reflexivity|reflexivity].
  - destruct b as [|y b].
    + split; [discriminate|intros (r & E); discriminate].
    + rewrite andb_true_iff, IH. split.
      * intros (E & r & ->). apply Z.eqb_eq in E. subst. now exists r.
      * intros (r & E). injection E as -> ->. split; [lia|now exists r].
Qed.
Lemma long_mode_spec n m : n <> [] -> long_mode n = Some m <->
  exists full rest, In (full, m) [(str "strip", MStrip); (str "rel-fixup", MFixup); (str "undo-link", MUndo)] /\ full = n ++ rest.
Proof.
  intros N. destruct n as [|c t]; [easy|]. unfold long_mode.
  assert (B : forall full, begins (c :: t) full = true -> hd 0 full = c).
  { intros [|y b]; cbn; [discriminate|]. intros H. lia. }
  cbn [filter fst].
  destruct (begins (c :: t) (str "strip")) eqn:B1; [|destruct (begins (c :: t) (str "rel-fixup")) eqn:B2; [|destruct (begins (c :: t) (str "undo-link")) eqn:B3]].
  - pose proof (B _ B1) as C. change (115 = c) in C. subst c.
    replace (begins (115 :: t) (str "rel-fixup")) with false by reflexivity.
    replace (begins (115 :: t) (str "undo-link")) with false by reflexivity. apply begins_spec in B1 as (r & E). split.
    + intros Q. injection Q as <-. exists (str "strip"), r. split; [now left|exact E].
    + intros (full & rest & [Q|[Q|[Q|[]]]] & E2); injection Q as <- <-; [reflexivity|discriminate E2|discriminate E2].
  - pose proof (B _ B2) as C. change (114 = c) in C. subst c.
    replace (begins (114 :: t) (str "undo-link")) with false by reflexivity. apply begins_spec in B2 as (r & E). split.
    + intros Q. injection Q as <-. exists (str "rel-fixup"), r. split; [right; now left|exact E].
    + intros (full & rest & [Q|[Q|[Q|[]]]] & E2); injection Q as <- <-; [discriminate E2|reflexivity|discriminate E2].
  - pose proof (B _ B3) as C. change (117 = c) in C. subst c. apply begins_spec in B3 as (r & E). split.
    + intros Q. injection Q as <-. exists (str "undo-link"), r. split; [right; right; now left|exact E].
    + intros (full & rest & [Q|[Q|[Q|[]]]] & E2); injection Q as <- <-; [discriminate E2|discriminate E2|reflexivity].
  - split; [discriminate|]. intros (full & rest & I & E).
    assert (W : begins (c :: t) full = true) by (apply begins_spec; eauto).
    destruct I as [Q|[Q|[Q|[]]]]; injection Q as <- <-; congruence.
Qed.
Lemma flag_mode_spec c m : flag_mode c = Some m <-> In (c, m) [(115, MStrip); (114, MFixup); (117, MUndo)].
Proof.
  unfold flag_mode. split.
  - destruct (c =? 115) eqn:A; [intros Q; injection Q as <-; left; f_equal; lia|].
    destruct (c =? 114) eqn:B; [intros Q; injection Q as <-; right; left; f_equal; lia|].
    destruct (c =? 117) eqn:C; [intros Q; injection Q as <-; right; right; left; f_equal; lia|discriminate].
  - intros [Q|[Q|[Q|[]]]]; injection Q as <- <-; reflexivity.
Qed.

(** The kinds of words *)
Inductive word : list Z -> Prop :=
| w_end : word (str "--")
| w_long : forall n, n <> [] -> word (str "--" ++ n)
| w_short : forall c t, c <> 45 -> word (45 :: c :: t)
| w_op : forall a, operand a -> word a.
Lemma word_all a : word a.
Proof.
  destruct a as [|x a]; [apply w_op; right; discriminate|].
  destruct (Z.eq_dec x 45) as [->|N]; [|apply w_op; right; intros r E; congruence].
  destruct a as [|c t]; [apply w_op; left; reflexivity|].
  destruct (Z.eq_dec c 45) as [->|N]; [|now apply w_short].
  destruct t as [|d t]; [apply w_end|]. apply (w_long (d :: t)). discriminate.
Qed.
Lemma scan_end r : scan_args (str "--" :: r) = ([], r).
Proof. reflexivity. Qed.
Lemma scan_long n r : n <> [] -> scan_args ((str "--" ++ n) :: r) = (long_mode n :: fst (scan_args r), snd (scan_args r)).
Proof. intros N. destruct n as [|c t]; [easy|]. cbn [str app]. cbn. destruct (scan_args r). reflexivity. Qed.
Lemma scan_short c t r : c <> 45 -> scan_args ((45 :: c :: t) :: r) = (map flag_mode (c :: t) ++ fst (scan_args r), snd (scan_args r)).
Proof.
  intros N. cbn [scan_args]. destruct (scan_args r) as [es ops]. cbn [fst snd].
  destruct c as [|q|q]; try reflexivity.
  do 6 (try (destruct q as [q|q|]; try reflexivity)). contradiction.
Qed.
Lemma scan_op a r : operand a -> scan_args (a :: r) = ([], a :: r).
Proof.
  intros [->|N]; [reflexivity|]. cbn [scan_args]. destruct a as [|x a]; [reflexivity|].
  destruct x as [|q|q]; try reflexivity.
  do 6 (try (destruct q as [q|q|]; try reflexivity)). exfalso. exact (N a eq_refl).
Qed.

Lemma scan_none r ops : ops <> [] -> scan_args r = ([], ops) <-> (r = str "--" :: ops \/ r = ops /\ operand (hd [] ops)).
Proof.
  intros NE. split.
  - destruct r as [|a r]; [intros E; injection E as <-; contradiction|]. destruct (word_all a) as [|n N|c t N|a O].
    + rewrite scan_end. intros E. injection E as ->. now left.
    + rewrite scan_long by exact N. discriminate.
    + rewrite scan_short by exact N. discriminate.
    + rewrite scan_op by exact O. intros E. injection E as <-. right. split; [reflexivity|exact O].
  - intros [->|(-> & O)]; [reflexivity|]. destruct ops as [|a r]; [contradiction|]. now apply scan_op.
Qed.
Lemma scan_asks args m f1 f2 : scan_args args = ([Some m], [f1; f2]) <-> asks args m f1 f2.
Proof.
  assert (T : forall r, scan_args r = ([], [f1; f2]) <-> (r = [str "--"; f1; f2] \/ r = [f1; f2] /\ operand f1))
    by (intros r; apply scan_none; discriminate).
  split.
  - destruct args as [|a r]; [discriminate|]. destruct (word_all a) as [|n N|c t N|a O].
    + rewrite scan_end. discriminate.
    + rewrite scan_long by exact N. intros E. injection E as E1 E2 E3.
      assert (S0 : scan_args r = ([], [f1; f2])) by (rewrite (surjective_pairing (scan_args r)), E2, E3; reflexivity).
      apply T in S0. apply long_mode_spec in E1 as (full & rest & I & E); [|exact N].
      exists (str "--" ++ n). split; [exact (aw_name full n rest m I E N)|]. destruct S0 as [->|(-> & O)]; [now right|left; now split].
    + rewrite scan_short by exact N. destruct t as [|d t]; [|discriminate]. intros E. cbn [map app] in E. injection E as E1 E2 E3.
      assert (S0 : scan_args r = ([], [f1; f2])) by (rewrite (surjective_pairing (scan_args r)), E2, E3; reflexivity).
      apply T in S0. exists [45; c]. split; [apply aw_letter; now apply flag_mode_spec|]. destruct S0 as [->|(-> & O)]; [now right|left; now split].
    + rewrite scan_op by exact O. discriminate.
  - intros (w & W & H).
    assert (R : exists r, args = w :: r /\ scan_args r = ([], [f1; f2])).
    { destruct H as [(-> & O)| ->]; (eexists; split; [reflexivity|]); [apply T; right; now split|reflexivity]. }
    destruct R as (r & -> & S0). destruct W as [c m I|full n rest m I E N].
    + rewrite scan_short, S0; [|destruct I as [I|[I|[I|[]]]]; injection I as <- <-; discriminate].
      cbn [map app fst snd]. apply flag_mode_spec in I. now rewrite I.
    + rewrite scan_long, S0 by exact N. cbn [fst snd]. f_equal. f_equal. apply long_mode_spec; [exact N|]. eauto.
Qed.
Lemma set_modes_one es m : set_modes None es = Some (Some m) <-> es = [Some m].
Proof.
  split; [|intros ->; reflexivity]. destruct es as [|[n|] es]; cbn [set_modes]; try discriminate.
  destruct es as [|[k|] es]; cbn [set_modes]; try discriminate. intros E. now injection E as ->.
Qed.
Lemma args_asks args m f1 f2 : strip_args args = SRun m f1 f2 <-> asks args m f1 f2.
Proof.
  rewrite <- scan_asks. unfold strip_args. destruct (scan_args args) as [es ops]. split.
  - destruct (set_modes None es) as [[k|]|] eqn:M; try discriminate.
    destruct ops as [|a [|b [|c ops]]]; try discriminate. intros E. injection E as -> -> ->. apply set_modes_one in M. now subst.
  - intros E. injection E as -> ->. reflexivity.
Qed.
Lemma args_usage args : (forall m f1 f2, ~ asks args m f1 f2) -> strip_args args = SUsage.
Proof.
  intros N. destruct (strip_args args) as [|m f1 f2] eqn:E; [reflexivity|]. exfalso. apply args_asks in E. exact (N _ _ _ E).
Qed.

(** ** A whole file *)
Lemma set_nth_nth {A} (l : list A) n x k : (n < length l)%nat -> nth_error (set_nth l n x) k = if Nat.eqb k n then Some x else nth_error l k.
Proof.
  intros L. unfold set_nth. destruct (skipn n l) as [|y r] eqn:S.
  { exfalso. assert (length (skipn n l) = 0%nat) by now rewrite S. rewrite skipn_length in H. lia. }
  assert (F : length (firstn n l) = n) by (rewrite firstn_length; lia).
  assert (E : l = firstn n l ++ y :: r) by (rewrite <- S; symmetry; apply firstn_skipn).
  destruct (Nat.eqb_spec k n) as [->|N].
  - rewrite nth_error_app2 by lia. now rewrite F, Nat.sub_diag.
  - rewrite E at 2. destruct (Nat.lt_ge_cases k n) as [Lt|Ge].
    + rewrite !nth_error_app1 by lia. reflexivity.
    + rewrite !nth_error_app2 by lia. rewrite F. destruct (k - n)%nat as [|d] eqn:D; [lia|reflexivity].
Qed.
Lemma set_nth_length {A} (l : list A) n x : length (set_nth l n x) = length l.
Proof.
  unfold set_nth. rewrite <- (firstn_skipn n l) at 3. rewrite !app_length. destruct (skipn n l); reflexivity.
Qed.
Lemma same_refl s : same_but_data s s.
Proof. repeat split. Qed.
Lemma same_trans a b c : same_but_data a b -> same_but_data b c -> same_but_data a c.
Proof. unfold same_but_data. intuition congruence. Qed.
Lemma points_same secs secs' syms r sh o :
  (forall k s, nth_error secs k = Some s -> exists s', nth_error secs' k = Some s' /\ same_but_data s s') ->
  points secs syms r sh o -> points secs' syms r sh o.
Proof.
  intros S P. destruct P as [y N T|y s N T1 T2 M]; [now apply pt_section|].
  destruct (S _ _ M) as (s' & M' & Q). assert (s_addr s' = s_addr s) by apply Q. rewrite <- H. now apply pt_symbol.
Qed.
Lemma same_back s s' : same_but_data s s' -> same_but_data s' s.
Proof. unfold same_but_data. intuition congruence. Qed.

(** The state after the sections from 1 to [n - 1] *)
Definition data_upto (p : obj) (n k : nat) (s s' : sec) : Prop :=
  match s_data s, s_data s' with
  | CRelas rs, CRelas rs' => if (s_type s =? 4) && Nat.leb 1 k && Nat.ltb k n then relas_fixed p rs rs' else rs' = rs
  | CBytes bs, CBytes bs' => bytes_fixed p k bs bs'
  | _, _ => False
  end.
Definition upto_state (p q : obj) (n : nat) : Prop :=
  o_syms q = o_syms p /\ o_type q = o_type p /\ o_shoff q = o_shoff p /\ o_phnum q = o_phnum p /\
  length (o_secs q) = length (o_secs p) /\
  forall k s, nth_error (o_secs p) k = Some s -> exists s', nth_error (o_secs q) k = Some s' /\ same_but_data s s' /\ data_upto p n k s s'.
Lemma bytes_fixed_refl p k bs : bytes_fixed p k bs bs.
Proof. split; [reflexivity|]. now left. Qed.
Lemma upto_start p : upto_state p p 1.
Proof.
  repeat split. intros k s N. exists s. split; [exact N|]. split; [apply same_refl|]. unfold data_upto.
  destruct (s_data s); [apply bytes_fixed_refl|]. rewrite <- andb_assoc. replace (Nat.leb 1 k && Nat.ltb k 1) with false.
  - now rewrite andb_false_r.
  - symmetry. destruct k; [reflexivity|]. apply andb_false_iff. right. apply Nat.ltb_ge. lia.
Qed.
Lemma upto_skip p q n s : upto_state p q n -> (1 <= n)%nat -> nth_error (o_secs p) n = Some s -> s_type s <> 4 -> upto_state p q (S n).
Proof.
  intros (A & B & C & D & L & K) N1 Nn T. repeat split; try assumption. intros k x Nk. destruct (K k x Nk) as (x' & N' & Sm & Da).
  exists x'. split; [exact N'|]. split; [exact Sm|]. revert Da. unfold data_upto. destruct (s_data x), (s_data x'); try tauto.
  destruct (s_type x =? 4) eqn:E; [|tauto]. cbn [andb].
  replace (Nat.ltb k (S n)) with (Nat.ltb k n); [tauto|].
  destruct (Nat.eq_dec k n) as [->|Ne]; [exfalso; rewrite Nn in Nk; injection Nk as ->; lia|].
  destruct (Nat.ltb_spec k n), (Nat.ltb_spec k (S n)); lia.
Qed.
Lemma fixup_sec_step A dyn orig p q n s s1 q' : f_copy A = false -> tls_keeps A -> upto_state p q n -> (1 <= n)%nat ->
  nth_error (o_secs p) n = Some s -> s_type s = 4 -> nth_error (o_secs q) n = Some s1 ->
  fixup_sec A dyn orig q n s1 = FOk q' -> upto_state p q' (S n).
Proof.
  intros Cp Tk (A1 & B1 & C1 & D1 & L & K) N1 Nn Ty Nq H.
  destruct (K n s Nn) as (s0 & E0 & Sm & Da). assert (s0 = s1) by congruence. subst s0. clear E0.
  unfold fixup_sec in H. destruct (s_data s1) as [|rs] eqn:D1'; [discriminate|].
  assert (Ds : s_data s = CRelas rs).
  { revert Da. unfold data_upto. rewrite D1'. destruct (s_data s) as [|rs0]; [tauto|]. rewrite Ty, Nat.ltb_irrefl, andb_false_r. now intros ->. }
  destruct (nth_error (o_secs q) (Z.to_nat (s_info s1))) as [t1|] eqn:Nt; [|discriminate].
  destruct (fixup_relas _ _ _ _ _ _ _ _) as [[[rs' ys] bs']| | |] eqn:F; try discriminate. injection H as <-.
  apply fixup_relas_spec in F; [|exact Cp|exact Tk]. destruct F as (-> & Bk & Fr).
  set (m := Z.to_nat (s_info s1)) in *.
  assert (Ln : (n < length (o_secs q))%nat) by (apply nth_error_Some; congruence).
  assert (Lm : (m < length (o_secs q))%nat) by (apply nth_error_Some; congruence).
  assert (Qp : forall k x, nth_error (o_secs q) k = Some x -> exists x', nth_error (o_secs p) k = Some x' /\ same_but_data x x').
  { intros k x Nk. destruct (nth_error (o_secs p) k) as [y|] eqn:E.
    - destruct (K k y E) as (y' & E' & Q & _). rewrite Nk in E'. injection E' as <-. exists y. split; [reflexivity|now apply same_back].
    - exfalso. apply nth_error_None in E. assert (k < length (o_secs q))%nat by (apply nth_error_Some; congruence). lia. }
  assert (Pq : forall k x, nth_error (o_secs p) k = Some x -> exists x', nth_error (o_secs q) k = Some x' /\ same_but_data x x').
  { intros k x Nk. destruct (K k x Nk) as (x' & E & Q & _). eauto. }
  unfold upto_state. cbn [with_syms with_secs o_secs o_syms o_type o_shoff o_phnum].
  do 4 (split; [assumption|]). split; [now rewrite !set_nth_length|].
  intros k x Nk. rewrite set_nth_nth by (rewrite set_nth_length; exact Ln).
  destruct (Nat.eqb_spec k n) as [->|Ne].
  - assert (x = s) by congruence. subst x. exists (with_data s1 (CRelas rs')). split; [reflexivity|].
    split; [apply (same_trans _ s1); [exact Sm|repeat split]|].
    unfold data_upto. rewrite Ds. cbn [with_data s_data]. rewrite Ty. replace (Nat.leb 1 n) with true by (symmetry; apply Nat.leb_le; lia).
    replace (Nat.ltb n (S n)) with true by (symmetry; apply Nat.ltb_lt; lia). cbn [Z.eqb Pos.eqb andb].
    unfold relas_fixed. rewrite A1 in Fr. eapply CmpProofs.Forall2_imp; [|exact Fr]. cbn beta. intros r r' (O & y & Ny & H). split; [exact O|].
    exists y. split; [exact Ny|]. intros T. destruct (H T) as (H1 & H2). split; [exact H1|]. intros sh o P.
    apply (points_same (o_secs q)); [exact Qp|]. apply H2. now apply (points_same (o_secs p)).
  - rewrite set_nth_nth by exact Lm. destruct (K k x Nk) as (x' & N' & Sx & Dx).
    assert (Dx' : forall z, s_data z = s_data x' -> data_upto p (S n) k x z).
    { intros z Ez. revert Dx. unfold data_upto. rewrite Ez. destruct (s_data x), (s_data x'); try tauto.
      replace (Nat.ltb k (S n)) with (Nat.ltb k n); [tauto|]. destruct (Nat.ltb_spec k n), (Nat.ltb_spec k (S n)); lia. }
    destruct (Nat.eqb_spec k m) as [->|Nm].
    + assert (x' = t1) by congruence. subst x'. exists (put_bytes t1 bs'). split; [reflexivity|].
      unfold put_bytes. destruct (s_data t1) as [bs|] eqn:Dt.
      * split; [apply (same_trans _ t1); [exact Sx|repeat split]|]. unfold data_upto in Dx |- *. rewrite Dt in Dx. cbn [with_data s_data].
        destruct (s_data x) as [b0|]; [|tauto]. cbn [info_bytes] in Bk. destruct Dx as (La & Ha). destruct Bk as (Lb & Hb).
        split; [congruence|]. intros j.
        assert (G : forall r, In r rs -> got_type (r_type r) -> Z.of_nat j = (r_offset r - s_addr t1 - 2) mod 2 ^ 64 -> got_load p m j).
        { intros r I G E. exists n, s, rs, r, x. repeat split; try assumption; [unfold m; f_equal; symmetry; apply Sm|].
          rewrite E. f_equal. f_equal. f_equal. apply Sx. }
        destruct (Ha j) as [E|(E1 & E2 & E3)]; destruct (Hb j) as [F|(F1 & F2 & r & F3 & F4 & F5)].
        -- left. congruence.
        -- right. rewrite <- E. repeat split; try assumption. exact (G r F3 F4 F5).
        -- right. rewrite F. repeat split; assumption.
        -- exfalso. congruence.
      * split; [exact Sx|]. now apply Dx'.
    + exists x'. split; [exact N'|]. split; [exact Sx|]. now apply Dx'.
Qed.
Lemma fixup_secs_upto A dyn orig p : f_copy A = false -> tls_keeps A -> forall m n q q', upto_state p q n -> (1 <= n)%nat ->
  (n + m = length (o_secs p))%nat -> fixup_secs A dyn orig (seq n m) q = FOk q' -> upto_state p q' (length (o_secs p)).
Proof.
  intros Cp Tk. induction m as [|m IH]; intros n q q' U N1 L H; cbn [seq fixup_secs] in H.
  - injection H as <-. replace (length (o_secs p)) with n by lia. exact U.
  - destruct (nth_error (o_secs q) n) as [s1|] eqn:Nq; [|discriminate].
    destruct (nth_error (o_secs p) n) as [s|] eqn:Np; [|apply nth_error_None in Np; lia].
    assert (Ty : s_type s1 = s_type s).
    { destruct U as (_ & _ & _ & _ & _ & K). destruct (K n s Np) as (x & E & Q & _). rewrite Nq in E. injection E as <-. apply Q. }
    unfold SHT_RELA in H. rewrite Ty in H. destruct (s_type s =? 4) eqn:E4.
    + destruct (fixup_sec A dyn orig q n s1) as [q1| | |] eqn:F; try discriminate.
      apply (IH (S n) q1 q'); try lia; [|exact H]. apply (fixup_sec_step A dyn orig p q n s s1 q1); try assumption. lia.
    + destruct (s_type s =? SHT_REL); [discriminate|]. apply (IH (S n) q q'); try lia; [|exact H]. apply (upto_skip p q n s); try assumption. lia.
Qed.
Lemma rel_fixup_file A dyn orig p p' : f_copy A = false -> tls_keeps A -> rel_fixup A dyn orig p = FOk p' ->
  o_syms p' = o_syms p /\ o_type p' = o_type p /\ o_shoff p' = o_shoff p /\ o_phnum p' = o_phnum p /\
  length (o_secs p') = length (o_secs p) /\
  forall k s, nth_error (o_secs p) k = Some s -> exists s', nth_error (o_secs p') k = Some s' /\ same_but_data s s' /\
    ((0 < k)%nat -> data_fixed p k s s').
Proof.
  intros Cp Tk H. unfold rel_fixup in H. destruct (load_ok _ && load_ok _); [|discriminate].
  destruct (o_secs p) as [|s0 ss] eqn:E.
  - cbn [length Nat.sub seq fixup_secs] in H. injection H as <-. rewrite E. repeat split. intros k s N. destruct k; discriminate.
  - rewrite <- E in *. assert (U : upto_state p p' (length (o_secs p))).
    { apply (fixup_secs_upto A dyn orig p Cp Tk (length (o_secs p) - 1) 1 p p'); [apply upto_start|lia|rewrite E; cbn; lia|exact H]. }
    destruct U as (A1 & B1 & C1 & D1 & L & K). repeat split; try assumption. intros k s N. destruct (K k s N) as (s' & N' & Sm & D).
    exists s'. split; [exact N'|]. split; [exact Sm|]. intros P. revert D. unfold data_upto, data_fixed. destruct (s_data s), (s_data s'); try tauto.
    replace (Nat.leb 1 k) with true by (symmetry; apply Nat.leb_le; lia).
    replace (Nat.ltb k (length (o_secs p))) with true by (symmetry; apply Nat.ltb_lt; apply nth_error_Some; congruence).
    now rewrite !andb_true_r.
Qed.
