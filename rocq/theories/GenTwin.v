(** Functions that do not differ are left out, whatever else differs. *)
From Coq Require Import String.
From Verif Require Import Base BaseProofs StorageModel CliModel TextModel TextSpec TextProofs ParseModel ParseProofs RenameModel RenameSpec
  RenameProofs CmpModel CmpSpec CmpProofs ParseSpec GenModel DbgModel GenSpec GenFrame GenSteps GenOther GenLoad GenOut GenWhole GenChange GenNames GenTwinSpec.
Open Scope list_scope.

Definition r0 (st : gst) (n : text) : option text := rename_find (g_ren (s_0 st)) n.
Lemma ren0_find st s d st' : ren0 st s d = Ok st' -> forall n, n <> s -> r0 st' n = r0 st n.
Proof.
  unfold ren0, r0. intros H n N. bind H as r E. injection H as <-. cbn [with_0 s_0 with_ren g_ren]. unfold rename_add in E.
  destruct (same s d) eqn:Sd; [injection E as <-; auto|]. destruct (rename_find (g_ren (s_0 st)) s) as [d'|] eqn:F.
  - destruct (same d' d); [injection E as <-; auto|discriminate].
  - injection E as <-. rewrite find_cons. destruct (same s n) eqn:S; [|auto]. apply same_spec in S. congruence.
Qed.
Lemma ren0_self st s d st' : ren0 st s d = Ok st' -> r0 st s = None -> tells (r0 st' s) s d.
Proof.
  unfold ren0, r0. intros H N. bind H as r E. injection H as <-. cbn [with_0 s_0 with_ren g_ren]. unfold rename_add in E.
  destruct (same s d) eqn:Sd; [injection E as <-; apply same_spec in Sd; subst; right; auto|]. left. rewrite N in E.
  injection E as <-. rewrite find_cons. now rewrite same_refl.
Qed.
Lemma ren1_r0 st s d st' : ren1 st s d = Ok st' -> s_0 st' = s_0 st.
Proof. unfold ren1. intros H. bind H as r E. now injection H as <-. Qed.
Lemma del0_find st s n : r0 (del0 s st) n = if same s n then None else r0 st n.
Proof. unfold r0, del0. cbn [with_0 s_0 with_ren g_ren]. apply find_del. Qed.

(** ** Matching labels *)
Lemma add_other r s d r' n : rename_add r s d = Ok r' -> n <> s -> rename_find r' n = rename_find r n.
Proof.
  unfold rename_add. intros E N. destruct (same s d); [injection E as <-; auto|]. destruct (rename_find r s) as [d'|].
  - destruct (same d' d); [injection E as <-; auto|discriminate].
  - injection E as <-. rewrite find_cons. destruct (same s n) eqn:S; [|auto]. apply same_spec in S. congruence.
Qed.
Lemma match_labels_step add x0 x1 l0 l1 r r' : match_labels add r (x0 :: l0) (x1 :: l1) = Ok r' ->
  (l_text x0 = l_text x1 /\ match_labels add r l0 l1 = Ok r')
  \/ (l_text x0 <> l_text x1 /\ exists q, (if add then rename_add r (label_name x0) (label_name x1) = Ok q else q = rename_del r (label_name x0))
        /\ match_labels add q l0 l1 = Ok r').
Proof.
  cbn [match_labels]. destruct (list_eqb (l_text x0) (l_text x1)) eqn:Eq; intros H; [left; split; auto; now apply list_eqb_eq|right].
  split; [intros X; rewrite X in Eq; rewrite (proj2 (list_eqb_eq (l_text x1) (l_text x1)) eq_refl) in Eq; discriminate|].
  unfold label_name. destruct (get_token (Some (l_text x0))) as [t0 s0] eqn:G0. destruct (get_token (Some (l_text x1))) as [t1 s1] eqn:G1. cbn [fst].
  bind H as q A. exists q. split; [destruct add; [exact A|now injection A]|].
  repeat match type of H with context [match ?x with _ => _ end] => destruct x; try discriminate H end. exact H.
Qed.
Lemma match_labels_other add n : forall l0 l1 r r', match_labels add r l0 l1 = Ok r' -> ~ In n (map label_name l0) -> rename_find r' n = rename_find r n.
Proof.
  induction l0 as [|x0 l0 IH]; intros [|x1 l1] r r' H N; try (injection H as <-; reflexivity).
  assert (N0 : n <> label_name x0) by (intros ->; apply N; now left). assert (N1 : ~ In n (map label_name l0)) by (intros X; apply N; now right).
  apply match_labels_step in H as [(_ & H)|(_ & q & A & H)]; [eauto|]. rewrite (IH _ _ _ H N1). destruct add.
  - eapply add_other; eauto.
  - subst q. rewrite find_del. destruct (same _ n) eqn:S; auto. apply same_spec in S. congruence.
Qed.
Lemma match_labels_tells : forall l0 l1 r r', match_labels true r l0 l1 = Ok r' -> NoDup (map label_name l0) ->
  (forall x, In x l0 -> rename_find r (label_name x) = None) ->
  forall i x0 x1, nth_error l0 i = Some x0 -> nth_error l1 i = Some x1 -> tells (rename_find r' (label_name x0)) (label_name x0) (label_name x1).
Proof.
  induction l0 as [|y0 l0 IH]; intros [|y1 l1] r r' H Nd F i x0 x1 E0 E1; try (destruct i; discriminate).
  cbn [map] in Nd. inversion Nd as [|? ? Ny Nd']; subst.
  apply match_labels_step in H as [(E & H)|(_ & q & A & H)].
  - destruct i as [|i].
    + cbn in E0, E1. injection E0 as <-. injection E1 as <-. right. split.
      * rewrite (match_labels_other _ _ _ _ _ _ H Ny). apply F. now left.
      * unfold label_name. now rewrite E.
    + cbn in E0, E1. eapply IH; eauto. intros x I. apply F. now right.
  - destruct i as [|i].
    + cbn in E0, E1. injection E0 as <-. injection E1 as <-. rewrite (match_labels_other _ _ _ _ _ _ H Ny).
      destruct (text_eq_dec (label_name y0) (label_name y1)) as [Q|Q].
      * right. split; auto. unfold rename_add in A. rewrite Q, same_refl in A. injection A as <-. apply F. now left.
      * left. eapply add_self; eauto.
    + cbn in E0, E1. eapply IH; eauto. intros x I. rewrite (add_other _ _ _ _ _ A); [apply F; now right|].
      intros X. apply Ny. rewrite <- X. now apply in_map.
Qed.
Lemma nth_label_nth f b i n : nth_label f b i n <-> exists x, nth_error (labels (blines f b)) i = Some x /\ n = label_name x.
Proof.
  split.
  - intros (u & x & v & E & T & L & ts & H). exists x. split.
    + rewrite E. unfold labels. rewrite filter_app. cbn [filter]. rewrite T. cbn [dir_beq]. rewrite nth_error_app2 by (rewrite L; auto).
      rewrite L, Nat.sub_diag. reflexivity.
    + destruct (label_tokens x) as (ts' & H'). apply has_tokens_toks in H, H'. pose proof (toks_det _ _ H _ H') as X. congruence.
  - intros (x & E & ->). now apply nth_label_of.
Qed.

Lemma labels_once_like f g : like f g -> labels_once f -> labels_once g.
Proof.
  intros L O b c i j n Ib Ic Tb Tc Hb Hc. destruct (like_in _ _ _ L Ib) as (b' & Jb & Ab), (like_in _ _ _ L Ic) as (c' & Jc & Ac).
  destruct (alike_fields _ _ Ab) as (Eb & _ & _ & _ & _ & Tb' & _), (alike_fields _ _ Ac) as (Ec & _ & _ & _ & _ & Tc' & _). rewrite Eb, Ec.
  eapply (O b' c' i j n); eauto; try congruence; [now apply (nth_label_alike _ _ _ _ i n L Ab)|now apply (nth_label_alike _ _ _ _ j n L Ac)].
Qed.

Section Twin.
  Variables (f0 f1 : gfile).
  Hypotheses (W0 : NoDup (starts_of f0)) (W1 : NoDup (starts_of f1)) (Nm0 : names f0) (Nm1 : names f1) (Fn0 : func_names f0) (Fn1 : func_names f1)
    (La0 : labels_apart f0) (La1 : labels_apart f1) (Lo0 : labels_once f0) (Lo1 : labels_once f1).
  Notation from := (from f0 f1).
  Lemma from_names0 st : from st -> names (s_0 st).
  Proof. intros (L & _). exact (names_like _ _ W0 L Nm0). Qed.
  Lemma from_func0 st : from st -> func_names (s_0 st).
  Proof. intros (L & _). exact (func_names_like _ _ L Fn0). Qed.
  Lemma from_labels0 st : from st -> labels_apart (s_0 st).
  Proof. intros (L & _). exact (labels_apart_like _ _ L La0). Qed.
  Lemma from_once0 st : from st -> labels_once (s_0 st).
  Proof. intros (L & _). exact (labels_once_like _ _ L Lo0). Qed.
  Lemma from_once1 st : from st -> labels_once (s_1 st).
  Proof. intros (_ & L). exact (labels_once_like _ _ L Lo1). Qed.
  Lemma from_one0 st b c : from st -> In b (g_blocks (s_0 st)) -> In c (g_blocks (s_0 st)) -> b_start b = b_start c -> b = c.
  Proof. intros F Ib Ic E. apply (nodup_start (g_blocks (s_0 st))); auto. now apply (from_nodup0 f0 f1). Qed.
  Lemma from_one1 st b c : from st -> In b (g_blocks (s_1 st)) -> In c (g_blocks (s_1 st)) -> b_start b = b_start c -> b = c.
  Proof. intros F Ib Ic E. apply (nodup_start (g_blocks (s_1 st))); auto. now apply (from_nodup1 f0 f1). Qed.

  (** A block that is not joined has no entries in the first table. *)
  Lemma free_name st b : from st -> inv st -> In b (g_blocks (s_0 st)) -> b_pair b = None -> name b <> [] -> r0 st (name b) = None.
  Proof.
    intros F V I P Ne. destruct (r0 st (name b)) as [d|] eqn:E; auto. exfalso. destruct (i_tab0 _ V _ _ E) as (c0 & c1 & (J0 & _ & Jp) & H).
    assert (c0 = b); [|congruence]. destruct H as [(En & _)|(T & i & H & _)].
    - symmetry. apply (from_names0 _ F); auto.
    - apply (from_one0 st); auto. symmetry. eapply (from_labels0 _ F c0 b); eauto.
  Qed.
  Lemma free_label st b i n : from st -> inv st -> In b (g_blocks (s_0 st)) -> b_type b = BFunc -> b_pair b = None -> nth_label (s_0 st) b i n -> r0 st n = None.
  Proof.
    intros F V I Tb P L. destruct (r0 st n) as [d|] eqn:E; auto. exfalso. destruct (i_tab0 _ V _ _ E) as (c0 & c1 & (J0 & _ & Jp) & H).
    assert (c0 = b); [|congruence]. apply (from_one0 st); auto. destruct H as [(En & _)|(T & j & H & _)].
    - eapply (from_labels0 _ F b c0); eauto.
    - now destruct (from_once0 _ F c0 b j i n).
  Qed.

  (** What the first table says of joined blocks *)
  Record tab0 (o : gopts) (st : gst) : Prop := {
    t_var : forall b0 b1, joined st b0 b1 -> b_type b0 = BVar -> b_type b1 = BVar -> name b0 <> [] -> tells (r0 st (name b0)) (name b0) (name b1);
    t_func : forall b0 b1, joined st b0 b1 -> b_type b0 = BFunc -> b_type b1 = BFunc ->
      (b_ignore b1 = false -> ~ In 0 (name b0) -> r0 st (name b0) = Some (suffixed (name b1)))
      /\ (b_ignore b1 = true -> (to_leave o st b1 /\ r0 st (name b0) = None) \/ tells (r0 st (name b0)) (name b0) (name b1));
    t_label : forall b0 b1 i n d, joined st b0 b1 -> b_type b0 = BFunc -> b_type b1 = BFunc -> nth_label (s_0 st) b0 i n -> nth_label (s_1 st) b1 i d ->
      n <> name b0 -> n <> [] -> tells (r0 st n) n d }.
  (** Changes that leave the blocks and the table *)
  Lemma tab0_same o st st' : from st -> g_blocks (s_0 st') = g_blocks (s_0 st) -> g_blocks (s_1 st') = g_blocks (s_1 st) ->
    g_lines (s_0 st') = g_lines (s_0 st) -> g_lines (s_1 st') = g_lines (s_1 st) -> g_base (s_1 st') = g_base (s_1 st) ->
    (forall n, n <> [] -> r0 st' n = r0 st n) -> tab0 o st -> tab0 o st'.
  Proof.
    intros F B0 B1 L0 L1 Bs R [A B C].
    assert (J : forall b0 b1, joined st' b0 b1 <-> joined st b0 b1) by (intros; unfold joined; now rewrite B0, B1).
    split.
    - intros b0 b1 X T0 T1 N. rewrite R; auto. apply A; auto. now apply J.
    - intros b0 b1 X T0 T1. apply J in X. unfold to_leave. rewrite Bs, R; [now apply B|]. apply (from_func0 _ F); auto. apply X.
    - intros b0 b1 i n d X T0 T1 N0 N1 Ne Nn. apply J in X. apply (nth_label_lines _ (s_0 st)) in N0; auto. apply (nth_label_lines _ (s_1 st)) in N1; auto.
      rewrite R; auto. eapply C; eauto.
  Qed.
  Lemma from_lines st st' : from st -> from st' -> g_lines (s_0 st') = g_lines (s_0 st) /\ g_lines (s_1 st') = g_lines (s_1 st) /\ g_base (s_1 st') = g_base (s_1 st).
  Proof. intros ([_ A _ _] & [_ B _ C]) ([_ D _ _] & [_ E _ G]). repeat split; congruence. Qed.
  Lemma same_label f b c i n : b_start b = b_start c -> b_end b = b_end c -> nth_label f b i n -> nth_label f c i n.
  Proof. unfold nth_label, blines. now intros -> ->. Qed.
  (** Two blocks are joined. *)
  Lemma tab0_join o st st' b0 b1 : from st -> from st' -> In b0 (g_blocks (s_0 st)) -> In b1 (g_blocks (s_1 st)) ->
    g_blocks (s_0 st') = g_blocks (updb (b_start b0) (set_pair (b_start b1)) (s_0 st)) ->
    g_blocks (s_1 st') = g_blocks (updb (b_start b1) (set_pair (b_start b0)) (s_1 st)) ->
    (forall n, n <> [] -> n <> name b0 -> (b_type b0 = BFunc -> forall i, ~ nth_label (s_0 st) b0 i n) -> r0 st' n = r0 st n) ->
    (b_type b0 = BVar -> b_type b1 = BVar -> name b0 <> [] -> tells (r0 st' (name b0)) (name b0) (name b1)) ->
    (b_type b0 = BFunc -> b_type b1 = BFunc -> b_ignore b1 = false /\ (~ In 0 (name b0) -> r0 st' (name b0) = Some (suffixed (name b1)))) ->
    (forall i n d, b_type b0 = BFunc -> b_type b1 = BFunc -> nth_label (s_0 st) b0 i n -> nth_label (s_1 st) b1 i d -> n <> name b0 -> n <> [] -> tells (r0 st' n) n d) ->
    tab0 o st -> tab0 o st'.
  Proof.
    intros F F' I0 I1 B0 B1 R Hv Hf Hl [A B C]. destruct (from_lines _ _ F F') as (L0 & L1 & Bs).
    assert (X : forall c0 c1, joined st' c0 c1 -> exists d1, In d1 (g_blocks (s_1 st)) /\ alike c1 d1 /\ b_ignore c1 = b_ignore d1
      /\ ((c0 = set_pair (b_start b1) b0 /\ d1 = b1) \/ (c0 <> b0 /\ b_start c0 <> b_start b0 /\ joined st c0 d1))).
    { intros c0 c1 (J0 & J1 & P). rewrite B0 in J0. rewrite B1 in J1. apply updb_in in J0 as (e0 & K0 & E0). apply updb_in in J1 as (d1 & K1 & E1). exists d1.
      assert (Al : alike c1 d1 /\ b_ignore c1 = b_ignore d1) by (subst c1; destruct (Nat.eqb (b_start d1) (b_start b1)); split; reflexivity).
      destruct Al as (Al & Ig). split; auto. split; auto. split; auto. destruct (alike_fields _ _ Al) as (S1 & _).
      destruct (Nat.eqb (b_start e0) (b_start b0)) eqn:Q.
      - apply Nat.eqb_eq in Q. assert (e0 = b0) as -> by (now apply (from_one0 st)). left. subst c0. split; auto. cbn [set_pair b_pair] in P. injection P as P.
        apply (from_one1 st); auto. congruence.
      - right. subst e0. apply Nat.eqb_neq in Q. split; [congruence|]. split; auto. split; auto. split; auto. congruence. }
    split.
    - intros c0 c1 J T0 T1 N. destruct (X _ _ J) as (d1 & K1 & Al & _ & H). destruct (alike_fields _ _ Al) as (_ & _ & N1 & _ & _ & T & _). unfold name at 3. rewrite N1. fold (name d1).
      destruct H as [(-> & ->)|(Nb & Ns & J')]; [apply Hv; auto; congruence|]. rewrite R; auto; [apply A; auto; congruence| |].
      + intros E. apply Nb. apply (from_names0 _ F); auto. apply J'.
      + intros Tf i Hi. apply Ns. eapply (from_labels0 _ F b0 c0); eauto. apply J'.
    - intros c0 c1 J T0 T1. destruct (X _ _ J) as (d1 & K1 & Al & Ig & H). destruct (alike_fields _ _ Al) as (_ & _ & N1 & H1 & _ & T & _).
      unfold to_leave, name at 3 7. rewrite N1, H1, Bs, Ig. fold (name d1).
      destruct H as [(-> & ->)|(Nb & Ns & J')].
      + destruct (Hf T0) as (Y & Z); [congruence|]. rewrite Y. split; [auto|discriminate].
      + assert (Nn : name c0 <> []) by (apply (from_func0 _ F); auto; apply J'). rewrite R; auto; [apply B; auto; congruence| |].
        * intros E. apply Nb. apply (from_names0 _ F); auto. apply J'.
        * intros Tf i Hi. apply Ns. eapply (from_labels0 _ F b0 c0); eauto. apply J'.
    - intros c0 c1 i n d J T0 T1 H0 H1 Ne Nn. destruct (X _ _ J) as (d1 & K1 & Al & Ig & H). destruct (alike_fields _ _ Al) as (S1 & E1 & _ & _ & _ & T & _).
      apply (nth_label_lines _ (s_0 st)) in H0; auto. apply (nth_label_lines _ (s_1 st)) in H1; auto. apply (same_label _ c1 d1) in H1; auto.
      destruct H as [(-> & ->)|(Nb & Ns & J')]; [apply (Hl i); auto; congruence|]. rewrite R; auto; [eapply (C c0 d1 i); auto; congruence| |].
      + intros E. apply Ns. symmetry. eapply (from_labels0 _ F c0 b0); eauto. apply J'.
      + intros Tf j Hj. apply Ns. destruct (from_once0 _ F c0 b0 i j n); auto. apply J'.
  Qed.
  (** The flags of one function and the entry of its name change. *)
  Lemma tab0_flag o st st' b0 b1 : from st -> from st' -> inv st -> joined st b0 b1 -> b_type b1 = BFunc -> b_pair b1 = Some (b_start b0) ->
    g_blocks (s_0 st') = g_blocks (s_0 st) ->
    (forall c, In c (g_blocks (s_1 st')) -> exists d, In d (g_blocks (s_1 st)) /\ alike c d /\ (b_start c <> b_start b1 -> b_ignore c = b_ignore d)) ->
    (forall n, n <> name b0 -> r0 st' n = r0 st n) ->
    (forall c, In c (g_blocks (s_1 st')) -> alike c b1 -> b_type b0 = BFunc ->
      (b_ignore c = false -> ~ In 0 (name b0) -> r0 st' (name b0) = Some (suffixed (name b1)))
      /\ (b_ignore c = true -> (to_leave o st b1 /\ r0 st' (name b0) = None) \/ tells (r0 st' (name b0)) (name b0) (name b1))) ->
    tab0 o st -> tab0 o st'.
  Proof.
    intros F F' V Jb Tb Pb B0 B1 R Hf [A B C]. destruct (from_lines _ _ F F') as (L0 & L1 & Bs). pose proof Jb as (I0 & I1 & P0).
    assert (X : forall c0 c1, joined st' c0 c1 -> exists d1, In d1 (g_blocks (s_1 st)) /\ alike c1 d1 /\ joined st c0 d1 /\ (b_start c1 <> b_start b1 -> b_ignore c1 = b_ignore d1)).
    { intros c0 c1 (J0 & J1 & P). rewrite B0 in J0. destruct (B1 _ J1) as (d1 & K1 & Al & Ig). exists d1. split; auto. split; auto. split; auto.
      split; auto. split; auto. destruct (alike_fields _ _ Al) as (<- & _). exact P. }
    assert (Nr : forall c0, In c0 (g_blocks (s_0 st)) -> c0 <> b0 -> name c0 <> [] -> r0 st' (name c0) = r0 st (name c0)).
    { intros c0 K N Ne. apply R. intros E. apply N. apply (from_names0 _ F); auto. }
    split.
    - intros c0 c1 J T0 T1 N. destruct (X _ _ J) as (d1 & K1 & Al & J' & _). destruct (alike_fields _ _ Al) as (_ & _ & N1 & _ & _ & T & _). unfold name at 3. rewrite N1. fold (name d1).
      assert (c0 <> b0). { intros ->. destruct J' as (_ & _ & Jp). rewrite P0 in Jp. injection Jp as Jp. assert (d1 = b1) as -> by (apply (from_one1 st); auto). congruence. }
      rewrite Nr; auto; [apply A; auto; congruence|apply J'].
    - intros c0 c1 J T0 T1. destruct (X _ _ J) as (d1 & K1 & Al & J' & Ig). destruct (alike_fields _ _ Al) as (S1 & _ & N1 & H1 & _ & T & _).
      destruct (Nat.eq_dec (b_start c1) (b_start b1)) as [Q|Q].
      + assert (d1 = b1) as -> by (apply (from_one1 st); auto; congruence).
        assert (c0 = b0) as ->.
        { apply (from_one0 st); auto; [apply J'|]. destruct J' as (J0 & _ & Jp). destruct (i_fwd _ V c0 _ J0 Jp) as (e1 & (_ & K & Kp) & _ & Fp).
          assert (e1 = b1) as -> by (apply (from_one1 st); auto; congruence). rewrite Fp in Pb; auto. congruence. }
        unfold to_leave, name at 3 7. rewrite N1, H1, Bs. fold (name b1). apply (Hf c1); auto. apply J.
      + unfold to_leave, name at 3 7. rewrite N1, H1, Bs, (Ig Q). fold (name d1).
        assert (c0 <> b0). { intros ->. destruct J' as (_ & _ & Jp). rewrite P0 in Jp. injection Jp as Jp. congruence. }
        rewrite Nr; auto; [apply B; auto; congruence|apply J'|apply (from_func0 _ F); auto; apply J'].
    - intros c0 c1 i n d J T0 T1 H0 H1 Ne Nn. destruct (X _ _ J) as (d1 & K1 & Al & J' & _). destruct (alike_fields _ _ Al) as (S1 & E1 & _ & _ & _ & T & _).
      apply (nth_label_lines _ (s_0 st)) in H0; auto. apply (nth_label_lines _ (s_1 st)) in H1; auto. apply (same_label _ c1 d1) in H1; auto.
      rewrite R; [eapply (C c0 d1 i); auto; congruence|]. intros E. apply Ne.
      assert (b0 = c0) as -> by (apply (from_one0 st); auto; [apply J'|eapply (from_labels0 _ F c0 b0); eauto; apply J']). exact E.
  Qed.

  (** *** Variables *)
  Lemma from_steps st st' : wf st -> steps st st' -> from st -> from st'.
  Proof. intros W S (A & B). destruct (steps_later _ _ W S) as [L0 L1 _ _]. split; eapply like_trans; eauto. Qed.
  Record calm (st st' : gst) : Prop := {
    c_quiet : quiet st st'; c_0 : forall n, n <> [] -> r0 st' n = r0 st n; c_1 : forall n e, r1 st' n = Some e -> r1 st n = Some e }.
  Lemma calm_refl st : calm st st.
  Proof. split; auto. apply quiet_refl. Qed.
  Lemma calm_trans a b c : calm a b -> calm b c -> calm a c.
  Proof. intros [A B C] [D E G]. split; [eapply quiet_trans; eauto| |]; intros; [rewrite E, B; auto|auto]. Qed.
  Lemma calm_from st st' : inv st -> calm st st' -> from st -> from st' /\ inv st'.
  Proof. intros V [[Q _ _] _ _] F. split; [eapply from_steps; eauto; apply V|eapply steps_inv; eauto]. Qed.
  Lemma var_cmp_calm o st b0 b1 d st' : from st -> inv st -> In b0 (g_blocks (s_0 st)) -> b_pair b0 = None -> var_cmp o st b0 b1 = Ok (d, st') -> calm st st'.
  Proof.
    intros F V I P H. split; [now apply var_cmp_quiet in H| |]; unfold var_cmp in H;
      repeat match type of H with (if ?c then _ else _) = _ => destruct c; [injection H as <- <-; auto|] end;
      bind H as u E; bind H as v E'; bind H as w E2; injection H as <- <-.
    - intros n N. change (r0 (del1 (name b1) (del0 (name b0) v)) n) with (r0 (del0 (name b0) v) n). rewrite del0_find.
      destruct (same (name b0) n) eqn:S.
      + apply same_spec in S. subst n. symmetry. now apply free_name.
      + apply ren1_r0 in E'. unfold r0 at 1. rewrite E'. apply (ren0_find _ _ _ _ E n). intros ->. now rewrite same_refl in S.
    - intros n e X. rewrite del1_find in X. destruct (same (name b1) n) eqn:S; [discriminate|].
      change (r1 (del0 (name b0) v) n) with (r1 v n) in X. apply ren0_r1 in E.
      destruct (ren1_find _ _ _ _ E' n) as [Y|(-> & _)]; [|now rewrite same_refl in S]. rewrite X in Y. unfold r1 in *. congruence.
  Qed.
  Lemma var_search_calm o b0 : forall ss st q st', from st -> inv st -> In b0 (g_blocks (s_0 st)) -> b_pair b0 = None ->
    var_search o st b0 ss = Ok (q, st') -> calm st st'.
  Proof.
    induction ss as [|s ss IH]; intros st q st' F V I P H; cbn [var_search] in H; [injection H as <- <-; apply calm_refl|].
    destruct (getb (s_1 st) s) as [b1|] eqn:G; [|eauto]. destruct (btype_beq (b_type b1) BVar) eqn:T; [|eauto].
    bind H as x E. destruct x as [d u]. cbn [fst snd] in H. apply var_cmp_calm in E; auto. destruct d; [|injection H as <- <-; auto].
    destruct (calm_from _ _ V E F) as (Fu & Vu). eapply calm_trans; [exact E|]. eapply IH; eauto. now rewrite (q_0 _ _ (c_quiet _ _ E)).
  Qed.
  Lemma var_try_calm o st b0 h q st' : from st -> inv st -> In b0 (g_blocks (s_0 st)) -> b_pair b0 = None -> var_try o st b0 h = Ok (q, st') -> calm st st'.
  Proof.
    intros F V I P H. unfold var_try in H. destruct (b_auto b0); cbn [negb] in H; [|injection H as <- <-; apply calm_refl].
    bind H as x E. destruct x as [d u]. cbn [fst snd] in H.
    assert (C : calm st u).
    { destruct h as [s|]; [|injection E as <- <-; apply calm_refl]. destruct (getb (s_1 st) s) as [c|]; [|injection E as <- <-; apply calm_refl]. now apply var_cmp_calm in E. }
    destruct (calm_from _ _ V C F) as (Fu & Vu). destruct d; [|injection H as <- <-; exact C].
    eapply calm_trans; [exact C|]. eapply var_search_calm; eauto. now rewrite (q_0 _ _ (c_quiet _ _ C)).
  Qed.
  (** Entries of the second table are for names of blocks. *)
  Definition named1 (st : gst) : Prop := forall n e, r1 st n = Some e -> e <> n /\ exists c, In c (g_blocks (s_1 st)) /\ name c = n.
  Lemma ren1_named st s d st' c : ren1 st s d = Ok st' -> In c (g_blocks (s_1 st)) -> name c = s -> named1 st -> named1 st'.
  Proof.
    intros H I E N n e X. destruct (ren1_blocks _ _ _ _ H) as (_ & B). rewrite B. destruct (ren1_find _ _ _ _ H n) as [Y|(-> & _ & Y & Z)].
    - apply N. congruence.
    - split; [congruence|eauto].
  Qed.
  Lemma var_round_step_tab o z st0 s x x' : pass st0 (fst (fst x)) -> from (fst (fst x)) -> tab0 o (fst (fst x)) -> named1 (fst (fst x)) ->
    no_func (fst (fst x)) -> var_round_step o z s x = Ok x' -> from (fst (fst x')) /\ tab0 o (fst (fst x')) /\ named1 (fst (fst x')).
  Proof.
    destruct x as [[st h] pr]. cbn [fst snd]. intros P F T N Nf H.
    pose proof (var_round_step_pass o z st0 s (st, h, pr) x' P Nf H) as (P' & _). cbn [fst snd] in P'.
    assert (F' : from (fst (fst x'))).
    { assert (Z : exists st0', st0' = fst (fst x') /\ steps st st0'); [|destruct Z as (y & -> & Z); eapply from_steps; eauto; apply P].
      pose proof (var_round_step_pass o z st s (st, h, pr) x' ltac:(split; [apply P|constructor|apply P]) Nf H) as (Z & _). eexists. split; [reflexivity|apply Z]. }
    split; auto. clear P' F'.
    unfold var_round_step in H. destruct (getb (s_0 st) s) as [b0|] eqn:G; [|injection H as <-; auto].
    destruct (btype_beq (b_type b0) BVar) eqn:Tb; cbn [negb] in H; [|injection H as <-; auto].
    destruct (b_pair b0) as [p|] eqn:Np; [injection H as <-; auto|]. destruct (z && starts (name b0) desc_str); [injection H as <-; auto|].
    bind H as y E. destruct y as [q u]. cbn [fst snd] in H. apply getb_in in G as (I0 & S0).
    assert (Tv : b_type b0 = BVar) by (destruct (b_type b0); try discriminate; reflexivity).
    apply var_try_calm in E; auto; [|apply P]. destruct (calm_from _ _ (p_inv _ _ P) E F) as (Fu & Vu). destruct E as [Q C0 C1].
    destruct (from_lines _ _ F Fu) as (L0 & L1 & Bs).
    assert (Tu : tab0 o u) by (eapply (tab0_same o st); eauto; apply Q).
    assert (Nu : named1 u) by (intros n e X; rewrite (q_1 _ _ Q); apply N; auto).
    destruct q as [s1|]; [|injection H as <-; auto].
    destruct (getb (s_1 u) s1) as [c1|] eqn:G1; [|discriminate]. bind H as v Ev. bind H as w Ew. injection H as <-. cbn [fst].
    apply getb_in in G1 as (I1 & S1). rewrite <- (q_0 _ _ Q) in I0.
    destruct (ren0_blocks _ _ _ _ Ev) as (V1 & V0). destruct (ren1_blocks _ _ _ _ Ew) as (W0' & W1').
    assert (Nw : named1 w).
    { eapply ren1_named; [exact Ew| |reflexivity|]; [now rewrite V1|]. intros n e X. unfold r1 in X. rewrite V1 in *. apply Nu. exact X. }
    split.
    - assert (Hr : forall n, r0 (join s s1 w) n = r0 v n) by (intros n; unfold r0; cbn [join upd0 upd1 with_0 with_1 s_0 s_1 updb with_blocks g_ren]; now rewrite W0').
      subst s s1.
      eapply (tab0_join o u _ b0 c1); eauto.
      + assert (Fw : from w).
        { eapply (from_ren f0 f1 u); [| |exact Fu].
          - right. rewrite W0'. unfold ren0 in Ev. bind Ev as r Er. injection Ev as <-. eexists. reflexivity.
          - right. unfold ren1 in Ew. bind Ew as r Er. injection Ew as <-. cbn [with_1 s_1]. rewrite V1. eexists. reflexivity. }
        destruct Fw as (A & B). split; [eapply like_trans; [exact A|apply updb_like, keeps_pair]|eapply like_trans; [exact B|apply updb_like, keeps_pair]].
      + cbn [join upd0 upd1 with_0 with_1 s_0 s_1 updb with_blocks g_blocks]. now rewrite W0', V0.
      + cbn [join upd0 upd1 with_0 with_1 s_0 s_1 updb with_blocks g_blocks]. now rewrite W1', V1.
      + intros n Nn Nb _. rewrite Hr. eapply ren0_find; eauto.
      + intros _ _ Ne. rewrite Hr. eapply ren0_self; eauto. apply free_name; auto.
      + congruence.
      + congruence.
    - intros n e X. destruct (Nw n e X) as (Y & c & Ic & Ec). split; auto.
      exists (if Nat.eqb (b_start c) s1 then set_pair s c else c). split; [|destruct (Nat.eqb _ _); exact Ec].
      apply (updb_in s1 (set_pair s) (s_1 (upd0 s (set_pair s1) w))). exists c. split; auto.
  Qed.

  (** The phase of the variables *)
  Lemma var_rounds_tab o st0 : forall n p st st', pass st0 st -> from st -> tab0 o st -> named1 st -> no_func st -> var_rounds o n p st = Ok st' ->
    from st' /\ tab0 o st' /\ named1 st'.
  Proof.
    induction n as [|n IH]; intros p st st' P F T N Nf H; cbn [var_rounds] in H; [discriminate|].
    bind H as x E. destruct x as [st1 pr]. cbn [fst snd] in H. unfold var_round in E. bind E as y E0. injection E as <- <-.
    apply (rfold_inv _ (fun _ x => (pass st0 (fst (fst x)) /\ no_func (fst (fst x))) /\ from (fst (fst x)) /\ tab0 o (fst (fst x)) /\ named1 (fst (fst x)))) in E0; [| |auto].
    2: { intros a r b b' ((A & B) & C & D & G) K. split; [eapply var_round_step_pass; eauto|eapply var_round_step_tab; eauto]. }
    destruct E0 as ((P1 & N1) & F1' & T1 & M1). destruct (Nat.ltb _ 2); [eapply IH; eauto|]. injection H as <-. auto.
  Qed.
  (** Changes of the second table *)
  Lemma tab0_ren1 o st st' r : from st -> s_0 st' = s_0 st -> s_1 st' = with_ren (s_1 st) r -> tab0 o st -> tab0 o st'.
  Proof.
    intros F E0 E1. apply tab0_same; auto; rewrite ?E0, ?E1; auto. intros n _. unfold r0. now rewrite E0.
  Qed.
  Lemma ren1_with st s d st' : ren1 st s d = Ok st' -> s_0 st' = s_0 st /\ exists r, s_1 st' = with_ren (s_1 st) r.
  Proof. unfold ren1. intros H. bind H as r E. injection H as <-. split; auto. exists r. reflexivity. Qed.
  Lemma ren0_with st s d st' : ren0 st s d = Ok st' -> s_1 st' = s_1 st /\ exists r, s_0 st' = with_ren (s_0 st) r.
  Proof. unfold ren0. intros H. bind H as r E. injection H as <-. split; auto. exists r. reflexivity. Qed.
  Lemma analyze_var_tab o st0 st st' : pass st0 st -> from st -> tab0 o st -> named1 st -> no_func st -> analyze_var o st = Ok st' -> from st' /\ tab0 o st' /\ named1 st'.
  Proof.
    intros P F T N Nf H. unfold analyze_var in H. bind H as x E. bind H as x0 E0. unfold var_matches in E. bind E as x1 E1.
    assert (x = x1) as -> by (eapply each0_same; [|exact E]; intros; eapply var_removed_same; eauto).
    assert (x0 = x1) as -> by (eapply each0_same; [|exact E0]; intros; eapply var_check_same; eauto).
    destruct (var_rounds_tab o st0 _ _ _ _ P F T N Nf E1) as (F1' & T1 & N1).
    eapply (each1_prop _ (fun s => from s /\ tab0 o s /\ named1 s)); [|exact H|auto].
    intros b s s' I G (A & B & C). cbv beta in G. destruct (btype_beq (b_type b) BVar && _); [|injection G as <-; auto]. unfold new_name1 in G. destruct (ren1_with _ _ _ _ G) as (G0 & r & G1).
    split; [|split].
    - eapply (from_ren f0 f1 s); [left; exact G0|right; exists r; exact G1|exact A].
    - eapply tab0_ren1; eauto.
    - eapply ren1_named; eauto.
  Qed.

  (** *** Joining functions *)
  Lemma func_join_from b0 b1 st st' : from st -> func_join b0 b1 st = Ok st' -> from st'.
  Proof.
    intros F H. unfold func_join in H. bind H as u Eu. bind H as v Ev. unfold match_func_labels in Eu. bind Eu as x Ex. injection Eu as <-.
    unfold new_name1, ren1 in Ev. bind Ev as y Ey. injection Ev as <-. unfold new_name0, ren0 in H. bind H as z Ez. injection H as <-.
    destruct F as (L0 & L1). split.
    - eapply like_trans; [exact L0|]. cbn. eapply like_trans; [apply (updb_like (b_start b0) (set_pair (b_start b1)) (s_0 st) (keeps_pair _))|].
      do 2 (eapply like_trans; [apply with_ren_like|]). apply with_ren_like.
    - eapply like_trans; [exact L1|]. cbn. eapply like_trans; [apply (updb_like (b_start b1) (set_pair (b_start b0)) (s_1 st) (keeps_pair _))|].
      apply with_ren_like.
  Qed.
  Lemma once_nodup f b : labels_once f -> In b (g_blocks f) -> b_type b = BFunc -> NoDup (map label_name (labels (blines f b))).
  Proof.
    intros O I T. apply NoDup_nth_error. intros i j Hi E. rewrite map_length in Hi.
    destruct (nth_error (labels (blines f b)) i) as [x|] eqn:Ex; [|apply nth_error_None in Ex; lia].
    rewrite (map_nth_error label_name _ _ Ex) in E. symmetry in E.
    destruct (nth_error (labels (blines f b)) j) as [y|] eqn:Ey.
    - rewrite (map_nth_error label_name _ _ Ey) in E. injection E as E. apply nth_label_of in Ex, Ey. rewrite E in Ey.
      now destruct (O b b i j (label_name x)).
    - apply nth_error_None in Ey. assert (nth_error (map label_name (labels (blines f b))) j = None) by (apply nth_error_None; now rewrite map_length). congruence.
  Qed.
  Lemma not_label f b n : (forall i, ~ nth_label f b i n) -> ~ In n (map label_name (labels (blines f b))).
  Proof.
    intros H I. apply in_map_iff in I as (x & <- & I). apply In_nth_error in I as (i & I). apply (H i). now apply nth_label_of.
  Qed.
  Lemma func_join_tab o b0 b1 st st' : from st -> inv st -> In b0 (g_blocks (s_0 st)) -> b_type b0 = BFunc -> b_pair b0 = None -> In b1 (g_blocks (s_1 st)) ->
    no_flags st -> func_join b0 b1 st = Ok st' -> tab0 o st -> named1 st -> from st' /\ tab0 o st' /\ named1 st'.
  Proof.
    intros F V I0 T0 P0 I1 Fl H T N. pose proof (func_join_from _ _ _ _ F H) as F'. pose proof (func_join_blocks _ _ _ _ H) as (B0 & B1). split; auto.
    unfold func_join in H. bind H as u Eu. bind H as v Ev. unfold match_func_labels in Eu. bind Eu as r Er. injection Eu as <-.
    unfold new_name1 in Ev. unfold new_name0 in H. destruct (ren1_with _ _ _ _ Ev) as (Ev0 & q & Ev1). destruct (ren0_with _ _ _ _ H) as (H1 & q' & H0).
    assert (Er' : match_labels true (g_ren (s_0 st)) (labels (blines (s_0 st) b0)) (labels (blines (s_1 st) b1)) = Ok r) by exact Er. clear Er.
    assert (Ro : forall n, n <> name b0 -> r0 st' n = rename_find r n).
    { intros n Nn. rewrite (ren0_find _ _ _ _ H n Nn). unfold r0 at 1. rewrite Ev0. cbn [with_0 s_0 with_ren g_ren del0]. rewrite find_del.
      destruct (same (name b0) n) eqn:S; auto. apply same_spec in S. congruence. }
    assert (Rs : tells (r0 st' (name b0)) (name b0) (kpatch_name (name b1))).
    { eapply ren0_self; [exact H|]. unfold r0. rewrite Ev0. cbn [with_0 s_0 with_ren g_ren del0]. rewrite find_del. now rewrite same_refl. }
    split.
    - eapply (tab0_join o st st' b0 b1); auto.
      + intros n Nn Nb Hl. rewrite Ro; auto. eapply match_labels_other; [exact Er'|]. apply not_label. auto.
      + congruence.
      + intros _ _. split; [now apply Fl|]. intros Nz. destruct Rs as [X|(_ & X)]; [exact X|]. destruct Nz. rewrite X. unfold kpatch_name.
        apply in_or_app. right. apply in_or_app. right. now left.
      + intros i n d _ _ X0 X1 Nb _. rewrite Ro; auto. apply nth_label_nth in X0 as (x0 & X0 & ->). apply nth_label_nth in X1 as (x1 & X1 & ->).
        eapply match_labels_tells; [exact Er'| | |exact X0|exact X1].
        * apply once_nodup; auto. now apply from_once0.
        * intros x Ix. apply In_nth_error in Ix as (j & Ij). apply (free_label st b0 j); auto. now apply nth_label_of.
    - assert (Nv : named1 v).
      { eapply (ren1_named _ _ _ _ (set_pair (b_start b0) b1)); [exact Ev| |reflexivity|].
        - cbn. apply (updb_in (b_start b1) (set_pair (b_start b0)) (s_1 st)). exists b1. now rewrite Nat.eqb_refl.
        - intros n e X. destruct (N n e X) as (Y & c & Ic & Ec). split; auto. exists (if Nat.eqb (b_start c) (b_start b1) then set_pair (b_start b0) c else c).
          split; [|destruct (Nat.eqb _ _); exact Ec]. apply (updb_in (b_start b1) (set_pair (b_start b0)) (s_1 st)). eauto. }
      intros n e X. unfold r1 in X. rewrite H1 in *. apply Nv. exact X.
  Qed.
  Lemma match_human_r0 o c b0 b1 st q st' : from st -> inv st -> In b0 (g_blocks (s_0 st)) -> b_type b0 = BFunc -> b_pair b0 = None ->
    match_human o c b0 b1 st = Ok (q, st') -> forall n, r0 st' n = r0 st n.
  Proof.
    intros F V I T P H n. unfold match_human in H.
    destruct b1 as [b1|]; [|injection H as _ <-; auto]. destruct (negb (b_auto b1) || _); [injection H as _ <-; auto|].
    destruct c; [|injection H as _ <-; auto]. bind H as u E. bind H as d Ed. bind H as v Ev. injection H as _ <-.
    unfold match_func_labels in E, Ev. bind E as x Ex. injection E as <-. bind Ev as y Ey. injection Ev as <-.
    assert (Ey' : match_labels false x (labels (blines (s_0 st) b0)) (labels (blines (s_1 st) b1)) = Ok y) by exact Ey. clear Ey.
    unfold r0. cbn [with_0 s_0 with_ren g_ren].
    destruct (in_dec text_eq_dec n (map label_name (labels (blines (s_0 st) b0)))) as [L|L].
    - apply in_map_iff in L as (z & <- & L). apply In_nth_error in L as (i & L). apply nth_label_of in L.
      pose proof (free_label st b0 i _ F V I T P L) as Z. unfold r0 in Z. rewrite Z. destruct (rename_find y (label_name z)) as [e|] eqn:Q; auto. exfalso.
      destruct (match_labels_del _ _ _ _ Ey' _ _ Q) as (X & Y).
      destruct (match_labels_add _ _ _ _ Ex _ _ X) as [X'|(j & x0 & x1 & X0 & X1 & Ne & En & _)]; [congruence|]. exact (Y j x0 x1 X0 X1 Ne En).
    - rewrite (match_labels_other _ _ _ _ _ _ Ey' L). now apply (match_labels_other _ _ _ _ _ _ Ex L).
  Qed.
  Definition joining (o : gopts) (st : gst) : Prop := from st /\ tab0 o st /\ named1 st /\ no_flags st.
  Lemma func_human_tab o c b0 st0 st st' : pass st0 st -> In b0 (g_blocks (s_0 st)) -> func_human o c b0 st = Ok st' -> joining o st -> joining o st'.
  Proof.
    intros Ps I H (F & T & N & Fl).
    assert (Fl' : no_flags st') by (eapply func_human_flags; eauto).
    unfold func_human in H. destruct (btype_beq (b_type b0) BFunc) eqn:Tb; cbn [negb orb] in H; [|injection H as <-; now split]. apply btype_func in Tb.
    destruct (b_pair b0) as [p|] eqn:P; cbn [orb] in H; [injection H as <-; now split|]. destruct (negb (b_auto b0)); [injection H as <-; now split|].
    bind H as x E. destruct x as [q u]. cbn [fst snd] in H.
    pose proof (match_human_ren _ _ _ _ _ _ _ E) as (E1 & r & E0). pose proof (match_human_r0 _ _ _ _ _ _ _ F (p_inv _ _ Ps) I Tb P E) as R.
    assert (Fu : from u) by (eapply (from_ren f0 f1 st); [right; exists r; exact E0|left; exact E1|exact F]).
    assert (Tu : tab0 o u) by (eapply (tab0_same o st); eauto; rewrite ?E0, ?E1; reflexivity).
    assert (Nu : named1 u) by (intros n e; unfold r1; rewrite E1; apply N).
    assert (Fu' : no_flags u) by (intros b; rewrite E1; apply Fl).
    apply match_human_quiet in E as (Q & Hq). destruct q as [b1|]; [|injection H as <-; now split]. destruct (Hq b1 eq_refl) as (Fb & _).
    unfold find_by_hname in Fb. apply find_some in Fb as (I1 & _).
    assert (Vu : inv u) by (exact (steps_inv _ _ (p_inv _ _ Ps) (q_steps _ _ Q))).
    destruct (func_join_tab o b0 b1 u st') as (A & B & C); auto; [now rewrite E0|now rewrite E1|]. now split.
  Qed.
  Lemma func_exact_tab o st0 s rest st st' : exact_pass st0 (s :: rest) st ->
    match getb (s_0 st) s with Some b => func_exact b st | None => Ok st end = Ok st' -> joining o st -> joining o st'.
  Proof.
    intros [Ps _ Rs _] H (F & T & N & Fl). destruct (getb (s_0 st) s) as [b0|] eqn:G; [|injection H as <-; now split]. apply getb_in in G as (I & S).
    assert (Fl' : no_flags st') by (eapply func_exact_flags; eauto).
    unfold func_exact in H. destruct (btype_beq (b_type b0) BFunc) eqn:Tb; cbn [negb orb] in H; [|injection H as <-; now split]. apply btype_func in Tb.
    destruct (b_auto b0); [injection H as <-; now split|]. destruct (find_by_name _ _) as [b1|] eqn:Fb; [|injection H as <-; now split].
    unfold find_by_name in Fb. apply find_some in Fb as (I1 & _).
    destruct (func_join_tab o b0 b1 st st') as (A & B & C); auto; [apply Ps|apply Rs; auto; rewrite S; now left|]. now split.
  Qed.
  Lemma joins_tab o st0 st x1 x2 x3 : pass st0 st -> no_func st -> joining o st -> each0 func_exact st = Ok x1 -> each0 (func_human o true) x1 = Ok x2 ->
    each0 (func_human o false) x2 = Ok x3 -> pass st0 x3 /\ joining o x3.
  Proof.
    intros Ps N J H1 H2 H3. pose proof J as (F & _).
    assert (K1 : pass st0 x1 /\ joining o x1).
    { unfold each0 in H1. apply (rfold_inv _ (fun rest s => exact_pass st0 rest s /\ joining o s)) in H1.
      - destruct H1 as ([A _ _ _] & B). auto.
      - intros s r a b (A & B) E. split; [|eapply func_exact_tab; eauto]. destruct B as (Fa & _). eapply func_exact_pass; eauto; [now apply from_names0|now apply from_func0].
      - split; auto. split; auto.
        + apply (i_wf _ (p_inv _ _ Ps)).
        + intros b c Ib Ic Tb Eb. rewrite (N b Ib Tb) in Eb. discriminate. }
    assert (Kh : forall c a b, pass st0 a /\ joining o a -> each0 (func_human o c) a = Ok b -> pass st0 b /\ joining o b).
    { intros c a b K E. eapply (each0_prop _ (fun s => pass st0 s /\ joining o s)); [|exact E|exact K].
      intros d s s' I G (A & B). split; [eapply func_human_pass; eauto|eapply func_human_tab; eauto]. }
    eauto.
  Qed.

  (** *** Labels in the second table *)
  Definition lab1 (rest : list nat) (st : gst) : Prop := forall n e, r1 st n = Some e -> e <> n
    /\ ((exists c, In c (g_blocks (s_1 st)) /\ name c = n)
        \/ exists c i, In c (g_blocks (s_1 st)) /\ b_type c = BFunc /\ nth_label (s_1 st) c i n /\ (b_pair c = None \/ ~ In (b_start c) rest)).
  Lemma lab1_less rest st st' : (forall n e, r1 st' n = Some e -> r1 st n = Some e) -> g_lines (s_1 st') = g_lines (s_1 st) ->
    (forall c, In c (g_blocks (s_1 st)) -> exists c', In c' (g_blocks (s_1 st')) /\ alike c' c /\ b_pair c' = b_pair c) -> lab1 rest st -> lab1 rest st'.
  Proof.
    intros R L B H n e X. destruct (H n e (R n e X)) as (Ne & Y). split; auto. destruct Y as [(c & Ic & E)|(c & i & Ic & T & Hl & Hp)]; destruct (B c Ic) as (c' & Ic' & Al & P).
    - left. exists c'. split; auto. destruct (alike_fields _ _ Al) as (_ & _ & En & _). unfold name. now rewrite En.
    - right. exists c', i. destruct (alike_fields _ _ Al) as (S & E & _ & _ & _ & Et & _). split; auto. split; [congruence|]. rewrite P, S. split; auto.
      apply (same_label _ c c'); auto. eapply nth_label_lines; [|exact Hl]. auto.
  Qed.
  Lemma lab1_weak s rest st : lab1 (s :: rest) st -> lab1 rest st.
  Proof.
    intros H n e X. destruct (H n e X) as (Ne & Y). split; auto. destruct Y as [Y|(c & i & Ic & T & Hl & Hp)]; [auto|]. right. exists c, i.
    repeat split; auto. destruct Hp as [Hp|Hp]; auto. right. intros Z. apply Hp. now right.
  Qed.
  Lemma make_new_labels_lab1 rest b st st' : In b (g_blocks (s_1 st)) -> b_type b = BFunc -> (b_pair b = None \/ ~ In (b_start b) rest) ->
    make_new_labels b st = Ok st' -> lab1 rest st -> lab1 rest st'.
  Proof.
    intros I T P H L n e X. unfold make_new_labels in H. bind H as r E. injection H as <-. unfold r1 in X. cbn [with_1 s_1 with_ren g_ren] in X.
    destruct (new_labels_find _ _ _ _ E n e X) as [Y|(-> & _ & i & x & Hx & ->)]; [exact (L n e Y)|].
    split; [apply not_eq_sym; apply suffix_neq|]. right. exists b, i. repeat split; auto. now apply nth_label_of.
  Qed.
  Lemma func_new_tab o rest b1 st st' : from st -> In b1 (g_blocks (s_1 st)) -> func_new b1 st = Ok st' -> tab0 o st -> lab1 rest st -> from st' /\ tab0 o st' /\ lab1 rest st'.
  Proof.
    intros F I H T L. unfold func_new in H. destruct (btype_beq (b_type b1) BFunc) eqn:Tb; cbn [negb orb] in H; [|injection H as <-; auto]. apply btype_func in Tb.
    destruct (b_pair b1) as [p|] eqn:P; [injection H as <-; auto|]. destruct (rename_find _ _); [injection H as <-; auto|]. bind H as u E.
    assert (U : from u /\ tab0 o u /\ lab1 rest u /\ g_blocks (s_1 u) = g_blocks (s_1 st)).
    { destruct (b_auto b1); [|injection E as <-; auto]. unfold new_name1 in E. destruct (ren1_with _ _ _ _ E) as (E0 & r & E1).
      split; [|split; [|split]].
      - eapply (from_ren f0 f1 st); [left; exact E0|right; exists r; exact E1|exact F].
      - eapply tab0_ren1; eauto.
      - intros n e X. destruct (ren1_find _ _ _ _ E n) as [Y|(-> & _ & Y & Z)].
        + rewrite X in Y. destruct (L n e (eq_sym Y)) as (Ne & W). rewrite E1. split; auto.
        + split; [congruence|]. left. exists b1. rewrite E1. auto.
      - now rewrite E1. }
    destruct U as (Fu & Tu & Lu & Bu). destruct (make_new_labels_names _ _ _ H) as (_ & _ & _ & E0 & r & E1).
    split; [|split].
    - eapply (from_ren f0 f1 u); [left; exact E0|right; exists r; exact E1|exact Fu].
    - eapply tab0_ren1; eauto.
    - apply (make_new_labels_lab1 rest b1 u st'); auto. now rewrite Bu.
  Qed.
  (** *** Functions left out *)
  Lemma tab0_unlink o st s : from st -> tab0 o st -> tab0 o (upd1 s set_unlink st).
  Proof.
    intros F [A B C].
    assert (X : forall c0 c1, joined (upd1 s set_unlink st) c0 c1 -> exists d1, joined st c0 d1 /\ alike c1 d1 /\ b_ignore c1 = b_ignore d1).
    { intros c0 c1 (J0 & J1 & P). apply (updb_in s set_unlink (s_1 st)) in J1 as (d1 & K1 & E). exists d1.
      assert (Al : alike c1 d1 /\ b_ignore c1 = b_ignore d1) by (subst c1; destruct (Nat.eqb (b_start d1) s); split; reflexivity). destruct Al as (Al & Ig).
      split; auto. split; auto. split; auto. destruct (alike_fields _ _ Al) as (<- & _). exact P. }
    split.
    - intros c0 c1 J T0 T1 N. destruct (X _ _ J) as (d1 & J' & Al & _). destruct (alike_fields _ _ Al) as (_ & _ & N1 & _ & _ & T & _). unfold name at 3. rewrite N1.
      apply (A c0 d1); auto. congruence.
    - intros c0 c1 J T0 T1. destruct (X _ _ J) as (d1 & J' & Al & Ig). destruct (alike_fields _ _ Al) as (_ & _ & N1 & H1 & _ & T & _).
      unfold to_leave, name at 3 7. rewrite N1, H1, Ig. apply (B c0 d1); auto. congruence.
    - intros c0 c1 i n d J T0 T1 H0 H1 Ne Nn. destruct (X _ _ J) as (d1 & J' & Al & _). destruct (alike_fields _ _ Al) as (S1 & E1 & _ & _ & _ & T & _).
      apply (same_label _ c1 d1) in H1; auto. apply (C c0 d1 i n d); auto. congruence.
  Qed.
  Lemma pair_of st b1 p b0 : from st -> inv st -> In b1 (g_blocks (s_1 st)) -> b_pair b1 = Some p -> getb (s_0 st) p = Some b0 -> joined st b0 b1 /\ b_start b0 = p.
  Proof.
    intros F V I P G. destruct (i_back _ V b1 p I P) as (c0 & J & S). apply getb_in in G as (I0 & S0).
    assert (c0 = b0) as -> by (apply (from_one0 st); auto; [apply J|congruence]). auto.
  Qed.
  Lemma upd1_blocks s g st : keeps g -> (forall b, b_pair (g b) = b_pair b) ->
    (forall c, In c (g_blocks (s_1 st)) -> exists c', In c' (g_blocks (s_1 (upd1 s g st))) /\ alike c' c /\ b_pair c' = b_pair c).
  Proof.
    intros K P c I. exists (if Nat.eqb (b_start c) s then g c else c). split; [apply updb_in; eauto|]. destruct (Nat.eqb _ _); split; auto; reflexivity.
  Qed.
  Lemma func_config_tab o rest b1 st st' : from st -> inv st -> In b1 (g_blocks (s_1 st)) -> func_config o b1 st = Ok st' -> tab0 o st -> lab1 rest st ->
    tab0 o st' /\ lab1 rest st'.
  Proof.
    intros F V I H T L. unfold func_config in H. destruct (btype_beq (b_type b1) BFunc) eqn:Tb; cbn [negb] in H; [|injection H as <-; auto]. apply btype_func in Tb.
    destruct (b_pair b1) as [p|] eqn:P; [|injection H as <-; auto]. bind H as u E.
    assert (U : from u /\ tab0 o u /\ lab1 rest u).
    { destruct (in_syms_list (go_conf o) _ _ _) eqn:Q; [|injection E as <-; auto]. destruct (getb (s_0 st) p) as [b0|] eqn:G; [|discriminate]. injection E as <-.
      destruct (pair_of _ _ _ _ F V I P G) as (J & S). set (u := del0 (name b0) (del1 (name b1) st)).
      assert (Fu : from u) by (eapply (from_ren f0 f1 st); [right; eexists; reflexivity|right; eexists; reflexivity|exact F]).
      assert (Fu' : from (upd1 (b_start b1) set_ignore u)) by (apply from_upd1; [apply keeps_ignore|exact Fu]).
      split; auto. split.
      - eapply (tab0_flag o st _ b0 b1); auto; [congruence| | |].
        + intros c Ic. apply (updb_in (b_start b1) set_ignore (s_1 u)) in Ic as (d & Id & ->). exists d. split; auto.
          destruct (Nat.eqb (b_start d) (b_start b1)) eqn:Z; split; try reflexivity. intros Y. apply Nat.eqb_eq in Z. destruct Y. exact Z.
        + intros n Nn. change (r0 (del0 (name b0) st) n = r0 st n). rewrite del0_find. destruct (same (name b0) n) eqn:Z; auto. apply same_spec in Z. congruence.
        + intros c Ic Al _. apply (updb_in (b_start b1) set_ignore (s_1 u)) in Ic as (d & Id & ->).
          assert (Z : Nat.eqb (b_start d) (b_start b1) = true).
          { apply Nat.eqb_eq. destruct (alike_fields _ _ Al) as (Z & _). destruct (Nat.eqb _ _); exact Z. }
          rewrite Z. split; [discriminate|]. intros _. left. split; [exact Q|]. change (r0 (del0 (name b0) st) (name b0) = None). rewrite del0_find. now rewrite same_refl.
      - eapply (lab1_less rest st); auto.
        + intros n e X. change (r1 (del1 (name b1) st) n = Some e) in X. rewrite del1_find in X. destruct (same (name b1) n); [discriminate|exact X].
        + apply (upd1_blocks (b_start b1) set_ignore u); [apply keeps_ignore|reflexivity]. }
    destruct U as (Fu & Tu & Lu). destruct (in_syms_list None _ _ _); injection H as <-; [|auto]. split; [now apply tab0_unlink|].
    eapply (lab1_less rest u); auto. apply (upd1_blocks (b_start b1) set_unlink u); [apply keeps_unlink|reflexivity].
  Qed.

  (** *** Words *)
  Lemma known0 st n d : from st -> inv st -> r0 st n = Some d -> known f0 n.
  Proof.
    intros (L & _) V E. destruct (i_tab0 _ V _ _ E) as (b0 & b1 & (J0 & _ & _) & H). destruct (like_in _ _ _ L J0) as (c & Ic & Al).
    destruct (alike_fields _ _ Al) as (_ & _ & N & _ & _ & T & _). exists c. split; auto. destruct H as [(-> & _)|(Tb & i & H & _)].
    - left. now rewrite N.
    - right. split; [congruence|]. exists i. now apply (nth_label_alike _ _ _ _ i n L Al).
  Qed.
  Lemma known1 st n d : from st -> inv st -> r1 st n = Some d -> known f1 n.
  Proof.
    intros (_ & L) V E.
    assert (X : exists b1, In b1 (g_blocks (s_1 st)) /\ (n = name b1 \/ (b_type b1 = BFunc /\ exists i, nth_label (s_1 st) b1 i n))).
    { destruct (i_tab1 _ V _ _ E) as [(b0 & b1 & (_ & J1 & _) & -> & _)|(_ & b1 & I1 & H)]; [exists b1; split; [auto|now left]|exists b1; auto]. }
    destruct X as (b1 & I1 & H). destruct (like_in _ _ _ L I1) as (c & Ic & Al). destruct (alike_fields _ _ Al) as (_ & _ & N & _ & _ & T & _).
    exists c. split; auto. destruct H as [->|(Tb & i & H)].
    - left. unfold name. now rewrite N.
    - right. split; [congruence|]. exists i. now apply (nth_label_alike _ _ _ _ i n L Al).
  Qed.
  Lemma tells_correspond m0 m1 t0 t1 : tells (m0 t0) t0 t1 -> tells (m1 t1) t1 t0 -> (forall e, m1 t1 = Some e -> e <> t1) -> corresponds m0 m1 t0 t1.
  Proof.
    intros [A|(A & B)] [C|(C & D)] N.
    - right. right. right. auto.
    - right. left. auto.
    - exfalso. exact (N _ C B).
    - left. auto.
  Qed.
  (** Of two joined blocks both know it. *)
  Definition both_pair (st : gst) : Prop := forall b0 b1, joined st b0 b1 -> b_pair b1 <> None.
  Lemma steps_both st st' : steps st st' -> both_pair st -> both_pair st'.
  Proof.
    intros H K. induction H as [|st u st' H IH S]; auto. specialize (IH K). clear H K. intros c0 c1 (J0 & J1 & P).
    assert (Fl : forall s g, keeps g -> (forall b, b_pair (g b) = b_pair b) -> st' = upd1 s g u -> b_pair c1 <> None).
    { intros s g Kg Kp ->. apply (updb_in s g (s_1 u)) in J1 as (d1 & I1 & E).
      assert (X : b_start c1 = b_start d1 /\ b_pair c1 = b_pair d1).
      { subst c1. destruct (Nat.eqb (b_start d1) s); split; auto. apply (alike_fields _ _ (Kg d1)). }
      destruct X as (X & ->). apply (IH c0). split; auto. split; auto. congruence. }
    destruct S as [b0 b1 I0 I1 Np _ _|r _|r _|b1 I1|b1 I1].
    - apply (updb_in (b_start b1) (set_pair (b_start b0)) (s_1 u)) in J1 as (d1 & K1 & ->). destruct (Nat.eqb (b_start d1) (b_start b1)) eqn:Q; [discriminate|].
      apply (updb_in (b_start b0) (set_pair (b_start b1)) (s_0 u)) in J0 as (d0 & K0 & ->). destruct (Nat.eqb (b_start d0) (b_start b0)) eqn:Q0.
      + cbn [set_pair b_pair] in P. injection P as P. rewrite P, Nat.eqb_refl in Q. discriminate.
      + apply (IH d0). now split.
    - apply (IH c0). now split.
    - apply (IH c0). now split.
    - eapply Fl; [apply keeps_ignore|reflexivity|reflexivity].
    - eapply Fl; [apply keeps_unlink|reflexivity|reflexivity].
  Qed.
  Lemma meaning_corresponds o rest st b0 b1 t0 t1 : from st -> inv st -> both_pair st -> tab0 o st -> lab1 rest st -> all_names f0 f1 o rest st -> joined st b0 b1 ->
    b_type b0 = BFunc -> b_type b1 = BFunc -> In (b_start b1) rest -> same_meaning o f0 f1 st b0 b1 t0 t1 -> corresponds (r0 st) (r1 st) t0 t1.
  Proof.
    intros F V Bp T L A J Tb0 Tb1 Ir M. pose proof J as (I0 & I1 & P0).
    assert (Pb : forall c0 c1, joined st c0 c1 -> b_type c0 = BFunc -> b_pair c1 = Some (b_start c0)).
    { intros c0 c1 (K0 & K1 & Kp) Tc. destruct (i_fwd _ V c0 _ K0 Kp) as (e1 & (_ & E1 & Ep) & _ & Fp).
      assert (e1 = c1) as <- by (apply (from_one1 st); auto; congruence). auto. }
    destruct M as [(-> & K0 & K1)|[(i & L0 & L1 & N0 & N1 & Ne)|(c0 & c1 & Jc & On & -> & -> & Ne0 & Ne1 & Nz & Ty)]].
    - left. destruct (r0 st t1) as [d|] eqn:E0; [destruct K0; eapply known0; eauto|]. destruct (r1 st t1) as [d|] eqn:E1; [destruct K1; eapply known1; eauto|]. auto.
    - assert (E1 : r1 st t1 = None).
      { destruct (r1 st t1) as [e|] eqn:E1; auto. exfalso. destruct (L _ _ E1) as (_ & [(c & Ic & En)|(c & j & Ic & Tc & Hl & Hp)]).
        - assert (c = b1) as -> by (apply (from_one1 st); auto; eapply (from_labels f0 f1 La1 _ F b1 c); eauto). apply N1. symmetry. exact En.
        - destruct (from_once1 _ F b1 c i j t1) as (S & _); auto. assert (c = b1) as -> by (now apply (from_one1 st)).
          rewrite (Pb b0 b1) in Hp; auto. destruct Hp as [Hp|Hp]; [discriminate|contradiction]. }
      destruct (t_label _ _ T b0 b1 i t0 t1) as [X|(X & Y)]; auto; [right; left|left]; auto.
    - fold (name c0) (name c1) in *. destruct Jc as (K0 & K1 & Kp). assert (Jc : joined st c0 c1) by now split.
      assert (Ns : forall e, r1 st (name c1) = Some e -> e <> name c1) by (intros e X; now apply (L _ _ X)).
      destruct Ty as [(T0 & T1)|(T0 & T1 & Tl)].
      + apply tells_correspond; auto; [now apply (t_var _ _ T)|].
        destruct (b_pair c1) as [s|] eqn:Q; [|destruct (Bp _ _ Jc Q)].
        destruct (vd_old _ (an_vars _ _ _ _ _ A) c1 s K1 Ne1 T1 Q) as (d0 & D0 & Td & Pd & Tt).
        * intros (d & Id & Td & Pd). destruct (i_back _ V c1 _ K1 Pd) as (d0 & Jd & Sd). assert (d0 = c0) as -> by (apply (from_one0 st); auto; apply Jd).
          assert (c0 = d) by (now apply (from_one0 st)). congruence.
        * assert (d0 = c0) as -> by (apply (from_one0 st); auto; apply On; now split). exact Tt.
      + assert (Fp : fpair st c1) by (exists c0; rewrite (Pb c0 c1); auto). destruct (an_oldf _ _ _ _ _ A c1 K1 T1 Fp) as (A1 & A2).
        destruct (t_func _ _ T c0 c1 Jc T0 T1) as (B1 & B2). destruct (b_ignore c1).
        * specialize (A2 eq_refl). specialize (B2 eq_refl).
          assert (Tb : forall d0, In d0 (g_blocks (s_0 st)) -> b_pair c1 = Some (b_start d0) -> d0 = c0).
          { intros d0 Id Pd. apply (from_one0 st); auto. rewrite (Pb c0 c1) in Pd; auto. congruence. }
          destruct B2 as [(Q & E0)|E0], A2 as [(Q' & E1)|(d0 & Id & _ & Pd & E1)].
          -- left. auto.
          -- rewrite (Tb _ Id Pd) in E1. specialize (Tl Q). destruct E1 as [E1|(E1 & _)]; [exfalso; exact (Ns _ E1 Tl)|left; auto].
          -- specialize (Tl Q'). destruct E0 as [E0|(E0 & _)]; [right; left; auto|left; auto].
          -- rewrite (Tb _ Id Pd) in E1. now apply tells_correspond.
        * destruct (A1 eq_refl) as (X & _). right. right. left. exists (suffixed (name c1)). split; [now apply B1|exact X].
  Qed.
  Lemma code_filter ls k : code_of ls k -> k = filter code_line ls.
  Proof.
    induction 1 as [|x ls k N H IH|x ls k N H IH]; auto; cbn [filter].
    - replace (code_line x) with false; auto. symmetry. unfold code_line. apply negb_false_iff, not_false_iff_true. intros Y.
      destruct (cmp_skip_head [x] x []); auto. cbn. now rewrite Y.
    - replace (code_line x) with true; [now rewrite IH|]. symmetry. unfold code_line. apply negb_true_iff, not_true_iff_false. intros Y. apply N.
      destruct (cmp_skip_split [x]) as (p & Fp & Ep). cbn in Ep. rewrite Y in Ep. destruct p; [discriminate|]. injection Ep as <- _. now inversion Fp.
  Qed.
  Lemma twin_cmp o rest st b0 b1 : from st -> inv st -> both_pair st -> tab0 o st -> lab1 rest st -> all_names f0 f1 o rest st -> joined st b0 b1 ->
    b_type b0 = BFunc -> b_type b1 = BFunc -> In (b_start b1) rest -> unchanged o f0 f1 st b0 b1 -> cmp_blocks o st true b0 b1 = Ok false.
  Proof.
    intros F V Bp T L A J T0 T1 Ir (k0 & k1 & C0 & C1 & K). unfold cmp_blocks, cblock_cmp. apply cmp_alike; [lia|].
    apply code_filter in C0, C1. rewrite <- C0, <- C1. eapply Forall2_imp; [|exact K]. intros x y (S & H). split; [intros _; exact S|].
    destruct H as [H|(ts0 & ts1 & H0 & H1 & H)]; [left; exact H|right]. cbn [ce_rename ce_r0 ce_r1]. exists ts0, ts1. split; auto. split; auto.
    eapply Forall2_imp; [|exact H]. intros t0 t1 M. exact (meaning_corresponds o rest st b0 b1 t0 t1 F V Bp T L A J T0 T1 Ir M).
  Qed.
  (** *** From one state to another *)
  Record over (st st' : gst) : Prop := {
    ov_lines0 : g_lines (s_0 st') = g_lines (s_0 st); ov_lines1 : g_lines (s_1 st') = g_lines (s_1 st); ov_base : g_base (s_1 st') = g_base (s_1 st);
    ov_in0 : forall b, b_type b <> BOther -> (In b (g_blocks (s_0 st')) <-> In b (g_blocks (s_0 st)));
    ov_in1 : forall c, In c (g_blocks (s_1 st')) -> b_type c <> BOther -> exists d, In d (g_blocks (s_1 st)) /\ alike c d }.
  Lemma over_from st st' : from st -> from st' -> g_blocks (s_0 st') = g_blocks (s_0 st) -> over st st'.
  Proof.
    intros F F' E. destruct (from_lines st st') as (A & B & C); auto. split; auto; [intros b _; now rewrite E|]. intros c Ic _.
    destruct F as (_ & L), F' as (_ & L'). destruct (like_in _ _ _ L' Ic) as (d & Id & Ad). destruct (like_in_r _ _ _ L Id) as (e & Ie & Ae). exists e. split; auto.
    unfold alike in *. congruence.
  Qed.
  Lemma over_joined st st' b0 b1 : over st st' -> joined st' b0 b1 -> b_type b0 <> BOther -> b_type b1 <> BOther -> exists c1, joined st b0 c1 /\ alike b1 c1.
  Proof.
    intros O (I0 & I1 & P) T0 T1. destruct (ov_in1 _ _ O b1 I1 T1) as (c1 & Ic & Ac). exists c1. split; auto. split; [now apply (ov_in0 _ _ O)|]. split; auto.
    destruct (alike_fields _ _ Ac) as (X & _). congruence.
  Qed.
  Lemma over_meaning o st st' b0 b1 c1 t0 t1 : over st st' -> inv st -> alike b1 c1 -> same_meaning o f0 f1 st' b0 b1 t0 t1 -> same_meaning o f0 f1 st b0 c1 t0 t1.
  Proof.
    intros O V Al [M|[(i & L0 & L1 & N0 & N1 & Ne)|(e0 & e1 & J & On & -> & -> & Ne0 & Ne1 & Nz & Ty)]]; [now left|right; left|right; right].
    - exists i. destruct (alike_fields _ _ Al) as (S & E & Nm & _). rewrite <- Nm. split; [eapply nth_label_lines; [|exact L0]; apply (ov_lines0 _ _ O)|]. split; auto.
      apply (same_label (s_1 st) b1 c1); auto. eapply nth_label_lines; [|exact L1]. apply (ov_lines1 _ _ O).
    - assert (T0 : b_type e0 <> BOther) by (destruct Ty as [(X & _)|(X & _)]; congruence).
      assert (T1 : b_type e1 <> BOther) by (destruct Ty as [(_ & X)|(_ & X & _)]; congruence).
      destruct (over_joined _ _ _ _ O J T0 T1) as (g1 & Jg & Ag). pose proof (alike_fields _ _ Ag) as (S & _ & Nm & Hn & _ & Tg & _). exists e0, g1. split; auto.
      split; [|rewrite <- Nm, <- Tg; split; auto; split; auto; split; auto; split; auto; split; auto;
               destruct Ty as [Ty|(X & Y & Z)]; [now left|right]; split; auto; split; auto; intros Q; apply Z; unfold to_leave in *; now rewrite Hn, (ov_base _ _ O)].
      intros d0 (D0 & D1 & Dp). apply On. destruct (i_fwd _ V d0 _ D0 Dp) as (h1 & _ & ([Td|Td] & _) & _).
      + split; [apply (ov_in0 _ _ O); auto; congruence|]. split; [apply J|]. congruence.
      + split; [apply (ov_in0 _ _ O); auto; congruence|]. split; [apply J|]. congruence.
  Qed.
  Lemma over_unchanged o st st' b0 b1 c1 : over st st' -> inv st -> alike b1 c1 -> unchanged o f0 f1 st' b0 b1 -> unchanged o f0 f1 st b0 c1.
  Proof.
    intros O V Al (k0 & k1 & C0 & C1 & K). destruct (alike_fields _ _ Al) as (S & E & _). exists k0, k1. unfold blines in *.
    rewrite (ov_lines0 _ _ O) in C0. rewrite (ov_lines1 _ _ O), S, E in C1. split; auto. split; auto.
    eapply Forall2_imp; [|exact K]. intros x0 x1 (Sx & [H|(ts0 & ts1 & H0 & H1 & H)]); split; auto. right. exists ts0, ts1. split; auto. split; auto.
    eapply Forall2_imp; [|exact H]. intros t0 t1 M. eapply over_meaning; eauto.
  Qed.
  (** *** Functions that did not change *)
  Definition twins (o : gopts) (rest : list nat) (st : gst) : Prop := forall b0 b1, joined st b0 b1 -> b_type b0 = BFunc -> b_type b1 = BFunc ->
    unchanged o f0 f1 st b0 b1 -> ~ In (b_start b1) rest -> b_ignore b1 = true.
  Definition looked (o : gopts) (rest : list nat) (st : gst) : Prop :=
    both_pair st /\ tab0 o st /\ lab1 rest st /\ all_names f0 f1 o rest st /\ twins o rest st.
  Lemma twins_over o s rest st st' : from st -> from st' -> inv st -> g_blocks (s_0 st') = g_blocks (s_0 st) ->
    (forall c, In c (g_blocks (s_1 st')) -> b_start c <> s -> In c (g_blocks (s_1 st))) ->
    (forall c0 c1, joined st' c0 c1 -> b_type c0 = BFunc -> b_type c1 = BFunc -> unchanged o f0 f1 st' c0 c1 -> b_start c1 = s -> b_ignore c1 = true) ->
    twins o (s :: rest) st -> twins o rest st'.
  Proof.
    intros F F' V E0 E1 Hs T c0 c1 J T0 T1 U N. destruct (Nat.eq_dec (b_start c1) s) as [Q|Q]; [now apply (Hs c0)|].
    pose proof (over_from _ _ F F' E0) as O. apply (T c0 c1); auto.
    - destruct J as (J0 & J1 & P). split; [now rewrite <- E0|]. split; auto.
    - eapply over_unchanged; eauto. reflexivity.
    - intros [X|X]; [congruence|contradiction].
  Qed.
  Lemma func_changed_tab o st0 s rest x x' : both_pair st0 -> pass st0 (fst x) -> func_changed o s x = Ok x' -> NoDup (s :: rest) ->
    looked o (s :: rest) (fst x) -> looked o rest (fst x').
  Proof.
    intros Bp Ps H Nd (B & T & L & A & Tw).
    pose proof (func_changed_pass _ _ _ _ _ Ps H) as Ps'. pose proof (func_changed_names f0 f1 W0 W1 Nm1 Fn1 La1 _ _ _ _ _ H Nd A) as A'.
    pose proof (an_from _ _ _ _ _ A) as F. pose proof (an_from _ _ _ _ _ A') as F'. pose proof (p_inv _ _ Ps) as V.
    assert (B' : both_pair (fst x')) by (eapply steps_both; [apply (p_steps _ _ Ps')|exact Bp]).
    destruct x as [st na]. cbn [fst] in *. unfold func_changed in H.
    assert (Pb : forall c0 c1, joined st c0 c1 -> b_type c0 = BFunc -> b_pair c1 = Some (b_start c0)).
    { intros c0 c1 (K0 & K1 & Kp) Tc. destruct (i_fwd _ V c0 _ K0 Kp) as (e1 & (_ & E1 & Ep) & _ & Fp).
      assert (e1 = c1) as <- by (apply (from_one1 st); auto; congruence). auto. }
    assert (Sk : x' = (st, na) -> (forall c0 b, joined st c0 b -> b_start b = s -> b_type c0 = BFunc -> b_type b = BFunc -> b_ignore b = true) -> looked o rest (fst x')).
    { intros -> K. cbn [fst] in *. split; auto. split; auto. split; [eapply lab1_weak; eauto|]. split; auto.
      eapply (twins_over o s rest st st); auto. intros c0 c1 J T0 T1 _ Q. now apply (K c0). }
    destruct (getb (s_1 st) s) as [b1|] eqn:G.
    2: { apply Sk; [congruence|]. intros c0 b (_ & Ib & _) E. rewrite <- E, (getb_of (s_1 st) b) in G; [discriminate|eapply from_nodup1; eauto|auto]. }
    apply getb_in in G as (I1 & <-). assert (One : forall b, In b (g_blocks (s_1 st)) -> b_start b = b_start b1 -> b = b1) by (intros; now apply (from_one1 st)).
    destruct (btype_beq (b_type b1) BFunc) eqn:Tb; cbn [negb orb] in H.
    2: { apply Sk; [congruence|]. intros c0 b (_ & Ib & _) E _ Tc. apply One in E; auto. subst b. rewrite Tc in Tb. discriminate. }
    apply btype_func in Tb. destruct (b_ignore b1) eqn:Ig; [apply Sk; [congruence|]; intros c0 b (_ & Ib & _) E _ _; apply One in E; auto; now subst b|].
    destruct (b_pair b1) as [p|] eqn:P.
    2: { apply Sk; [congruence|]. intros c0 b J E Tc _. apply One in E; [|apply J]. subst b. rewrite (Pb c0 b1) in P; auto. discriminate. }
    destruct (getb (s_0 st) p) as [b0|] eqn:G0; [|discriminate]. destruct (pair_of _ _ _ _ F V I1 P G0) as (J & S). bind H as d Ed.
    apply lab1_weak in L as L2. destruct d; cbn [negb] in H.
    - bind H as u E. injection H as <-. cbn [fst] in *. destruct (make_new_labels_names _ _ _ E) as (_ & _ & _ & E0 & r & E1).
      split; auto. split; [exact (tab0_ren1 o st u r F E0 E1 T)|]. split.
      + apply (make_new_labels_lab1 rest b1 st u); auto. right. now inversion Nd.
      + split; auto. assert (O : over st u) by (apply over_from; auto; now rewrite E0). apply (twins_over o (b_start b1) rest st u); auto.
        * now rewrite E0.
        * intros c Ic _. now rewrite E1 in Ic.
        * intros c0 c1 Jc T0 T1 U Q. exfalso. destruct (over_joined _ _ _ _ O Jc) as (e1 & Je & Ae); [congruence|congruence|].
          assert (e1 = b1) as -> by (apply One; [apply Je|]; destruct (alike_fields _ _ Ae) as (X & _); congruence).
          assert (c0 = b0) as -> by (apply (from_one0 st); auto; [apply Je|apply J|]; rewrite (Pb c0 b1) in P; auto; congruence).
          rewrite (twin_cmp o (b_start b1 :: rest) st b0 b1) in Ed; auto; [discriminate|now left|]. eapply over_unchanged; eauto.
    - bind H as u E. bind H as v Ev. injection H as <-. cbn [fst] in *. set (w := del1 (name b1) (del0 (name b0) st)) in *.
      destruct (ren0_with _ _ _ _ E) as (Eu & ru & Eu0). destruct (ren1_with _ _ _ _ Ev) as (Ev0 & rv & Ev1).
      assert (B0 : g_blocks (s_0 v) = g_blocks (s_0 st)) by (rewrite Ev0, Eu0; reflexivity).
      assert (B1 : g_blocks (s_1 v) = g_blocks (s_1 st)) by (rewrite Ev1, Eu; reflexivity).
      assert (L1 : g_lines (s_1 v) = g_lines (s_1 st)) by (rewrite Ev1, Eu; reflexivity).
      split; auto. split; [|split; [|split; auto]].
      + apply (tab0_flag o st _ b0 b1); auto; [congruence| | |].
        * intros c Ic. apply (updb_in (b_start b1) set_ignore (s_1 v)) in Ic as (d & Id & ->). exists d. split; [now rewrite <- B1|].
          destruct (Nat.eqb (b_start d) (b_start b1)) eqn:Z; split; try reflexivity. intros Y. apply Nat.eqb_eq in Z. destruct Y. exact Z.
        * intros n Nn. change (r0 v n = r0 st n). unfold r0. rewrite Ev0. fold (r0 u n) (r0 st n). rewrite (ren0_find _ _ _ _ E n Nn).
          change (r0 (del0 (name b0) st) n = r0 st n). rewrite del0_find. destruct (same (name b0) n) eqn:Z; auto. apply same_spec in Z. congruence.
        * intros c Ic Al _. apply (updb_in (b_start b1) set_ignore (s_1 v)) in Ic as (d & Id & ->).
          assert (Z : Nat.eqb (b_start d) (b_start b1) = true).
          { apply Nat.eqb_eq. destruct (alike_fields _ _ Al) as (Z & _). destruct (Nat.eqb _ _); exact Z. }
          rewrite Z. split; [discriminate|]. intros _. right. change (tells (r0 v (name b0)) (name b0) (name b1)). unfold r0. rewrite Ev0. fold (r0 u (name b0)).
          apply (ren0_self _ _ _ _ E). change (r0 (del0 (name b0) st) (name b0) = None). rewrite del0_find. now rewrite same_refl.
      + assert (Lv : lab1 rest v).
        { intros n e X. destruct (ren1_find _ _ _ _ Ev n) as [Y|(-> & _ & Y & Z)].
          - rewrite X in Y. symmetry in Y. unfold r1 in Y. rewrite Eu in Y. change (r1 (del1 (name b1) (del0 (name b0) st)) n = Some e) in Y. rewrite del1_find in Y.
            destruct (same (name b1) n); [discriminate|]. destruct (L2 n e Y) as (Ne & W). split; auto. rewrite B1.
            destruct W as [W|(c & i & Ic & Tc & Hl & Hp)]; [now left|right]. exists c, i. split; auto. split; auto. split; auto. eapply nth_label_lines; [|exact Hl]. auto.
          - rewrite X in Y. injection Y as ->. split; [congruence|]. left. exists b1. now rewrite B1. }
        eapply (lab1_less rest v); auto. apply (upd1_blocks (b_start b1) set_ignore v); [apply keeps_ignore|reflexivity].
      + apply (twins_over o (b_start b1) rest st _); auto.
        * intros c Ic N. apply (updb_in (b_start b1) set_ignore (s_1 v)) in Ic as (d & Id & ->).
          destruct (Nat.eqb (b_start d) (b_start b1)) eqn:Z; [apply Nat.eqb_eq in Z; now destruct N|]. now rewrite <- B1.
        * intros c0 c1 (_ & Ic & _) _ _ _ Q. apply (updb_in (b_start b1) set_ignore (s_1 v)) in Ic as (d & Id & ->).
          destruct (Nat.eqb (b_start d) (b_start b1)) eqn:Z; [reflexivity|]. apply Nat.eqb_neq in Z. contradiction.
  Qed.
  Lemma analyze_func_twins o st0 st st' : both_pair st0 -> pass st0 st -> no_func st -> joining o st -> func_names1 st -> analyze_func o st = Ok st' -> looked o [] st'.
  Proof.
    intros Bp Ps Nf J D H. pose proof J as (F & _ & _ & Fl). unfold analyze_func in H.
    bind H as x1 E1. bind H as x2 E2. bind H as x3 E3. bind H as x4 E4. bind H as x5 E5. bind H as y E6.
    destruct (joins_tab o st0 st x1 x2 x3 Ps Nf J E1 E2 E3) as (Ps3 & F3 & T3 & N3 & Fl3).
    assert (P3 : func_names1 x3 /\ from x3).
    { eapply (each0_prop _ (fun s => func_names1 s /\ from s)); [|exact E3|]; [intros; eapply func_human_names; eauto|].
      eapply (each0_prop _ (fun s => func_names1 s /\ from s)); [|exact E2|]; [intros; eapply func_human_names; eauto|].
      eapply (each0_prop _ (fun s => func_names1 s /\ from s)); [|exact E1|]; [intros; eapply func_exact_names; eauto|]. auto. }
    assert (N4 : no_flags x4).
    { eapply (each1_prop _ no_flags); [|exact E4|exact Fl3]. intros b s s' _ G. apply func_new_flags in G as (_ & G). now apply no_flags_blocks. }
    assert (L3 : lab1 (starts_of f1) x3) by (intros n e X; destruct (N3 n e X) as (Y & Z); split; auto).
    assert (K4 : from x4 /\ tab0 o x4 /\ lab1 (starts_of f1) x4).
    { eapply (each1_prop _ (fun s => from s /\ tab0 o s /\ lab1 (starts_of f1) s)); [|exact E4|auto]. intros b s s' Ib G (A & B & C). eapply func_new_tab; eauto. }
    assert (Ps4 : pass st0 x4) by (eapply each1_pass; [|exact Ps3|exact E4]; intros; eapply func_new_pass; eauto).
    destruct P3 as ([Va Fd Fo] & _).
    assert (P4 : new_names f0 f1 [] x4).
    { eapply (each1_rest func_new (new_names f0 f1)); [|exact E4|].
      - intros s r u v G X. eapply func_new_names; eauto.
      - split; auto; [eapply from_nodup1; eauto|]. intros b Ib _ _ N. destruct N. unfold starts_of. now apply in_map. }
    destruct P4 as [F4 V4 _ O4 _ D4].
    assert (P5 : pass st0 x5 /\ all_names f0 f1 o (starts_of f1) x5 /\ tab0 o x5 /\ lab1 (starts_of f1) x5).
    { eapply (each1_prop _ (fun s => pass st0 s /\ all_names f0 f1 o (starts_of f1) s /\ tab0 o s /\ lab1 (starts_of f1) s)); [|exact E5|].
      - intros b s s' Ib G (A & B & C & E). split; [eapply func_config_pass; eauto|]. split; [eapply func_config_names; eauto|].
        exact (func_config_tab o (starts_of f1) b s s' (an_from _ _ _ _ _ B) (p_inv _ _ A) Ib G C E).
      - split; auto. split; [|apply K4]. split; auto. intros b Ib T P. split; [|intros Ig; destruct (N4 b Ib); congruence]. intros _. split; auto. intros N. destruct N.
        eapply from_starts; eauto. }
    destruct P5 as (Ps5 & A5 & T5 & L5).
    assert (P6 : NoDup (@nil nat) /\ pass st0 (fst y) /\ looked o [] (fst y)).
    { eapply (rfold_inv (func_changed o) (fun r z => NoDup r /\ pass st0 (fst z) /\ looked o r (fst z))) in E6; [exact E6| |].
      - intros s r a b (N & A & B) G. split; [now inversion N|]. split; [eapply func_changed_pass; eauto|]. eapply func_changed_tab; eauto.
      - pose proof (an_from _ _ _ _ _ A5) as (F50 & F51). cbn [fst]. rewrite (like_starts _ _ F51). split; [exact W1|]. split; auto.
        split; [eapply steps_both; [apply (p_steps _ _ Ps5)|exact Bp]|]. split; auto. split; auto. split; auto.
        intros b0 b1 Jb _ _ _ N. destruct N. rewrite <- (like_starts _ _ F51). unfold starts_of. apply in_map, Jb. }
    destruct (snd y); [discriminate|]. injection H as <-. apply P6.
  Qed.
End Twin.
(** ** The whole analysis *)
Theorem analyze_twins a o f0 f1 st' : ready a f0 -> ready a f1 -> labels_apart f0 -> labels_apart f1 -> labels_once f0 -> labels_once f1 ->
  analyze o (start f0 f1) = Ok st' ->
  forall b0 b1, joined st' b0 b1 -> b_type b0 = BFunc -> b_type b1 = BFunc -> unchanged o f0 f1 st' b0 b1 -> b_ignore b1 = true.
Proof.
  intros R0 R1 La0 La1 Lo0 Lo1 H. destruct (start_inv _ _ _ R0 R1) as (I & N).
  assert (Nf : no_flags (start f0 f1)).
  { intros b Ib. pose proof (rd_fresh _ _ R1) as Fr. rewrite Forall_forall in Fr. destruct (Fr b Ib) as (_ & _ & F1 & F2 & _). auto. }
  assert (W0 : NoDup (starts_of f0)) by (apply (i_wf _ I)). assert (W1 : NoDup (starts_of f1)) by (apply (i_wf _ I)).
  pose proof (rd_names _ _ R0) as Nm0. pose proof (rd_names _ _ R1) as Nm1. pose proof (ready_func_names _ _ R0) as Fn0. pose proof (ready_func_names _ _ R1) as Fn1.
  unfold analyze in H. bind H as st1 E1. bind H as st2 E2.
  pose proof (analyze_var_names o f0 f1 st1 Nm1 W0 W1 Fn1 La1 (rd_fresh _ _ R1) (rd_ren _ _ R1) I N E1) as D1.
  destruct (analyze_var_ok _ _ _ I N Nf E1) as (_ & Nf1).
  destruct (analyze_var_pass _ _ _ I N E1) as (P1 & N1).
  pose proof (analyze_func_pass _ _ _ _ P1 Nm0 Fn0 N1 E2) as P2.
  assert (Np : forall b0 b1, ~ joined (start f0 f1) b0 b1).
  { intros b0 b1 (I0 & _ & P). pose proof (rd_fresh _ _ R0) as Fr. rewrite Forall_forall in Fr. destruct (Fr b0 I0) as (X & _). congruence. }
  assert (F0 : from f0 f1 (start f0 f1)) by (split; apply like_refl).
  assert (T0 : tab0 o (start f0 f1)) by (split; intros; exfalso; eapply Np; eauto).
  assert (Nn : named1 (start f0 f1)) by (intros n e X; unfold r1 in X; cbn [start s_1] in X; rewrite (rd_ren _ _ R1) in X; discriminate).
  destruct (analyze_var_tab f0 f1 W0 W1 Nm0 Fn0 La0 Lo0 o (start f0 f1) (start f0 f1) st1 ltac:(split; [auto|constructor|auto]) F0 T0 Nn N E1) as (F1 & T1 & N1').
  assert (Bp : both_pair (start f0 f1)) by (intros b0 b1 J; exfalso; eapply Np; eauto).
  assert (Lk : looked f0 f1 o [] st2) by (apply (analyze_func_twins f0 f1) with (st0 := start f0 f1) (st := st1); auto; now split).
  destruct Lk as (_ & _ & _ & _ & Tw).
  pose proof (pass_later _ _ P2) as [L0 L1 (Lo & Ln & _) _].
  assert (O0 : in_order (length (g_lines f0)) (g_blocks (s_0 st2))) by (eapply in_order_like; [exact L0|apply R0]).
  assert (O1 : in_order (length (g_lines f1)) (g_blocks (s_1 st2))) by (eapply in_order_like; [exact L1|apply R1]).
  destruct (analyze_other_spec _ _ _ _ _ O0 O1 H) as (A & B & (C1 & C2 & _) & D).
  assert (An : analysed f0 f1 st2 st') by (split; auto; rewrite C1, C2, Lo, Ln; now split).
  assert (O : over st2 st').
  { split; [apply (rs_lines _ _ _ A)|apply (rs_lines _ _ _ B)|apply (rs_base _ _ _ B)|intros b T; now apply (an_in0 _ _ _ _ An)|].
    intros c Ic T. exists c. split; [now apply (an_in1 _ _ _ _ An)|reflexivity]. }
  intros b0 b1 J T T' U. destruct (an_func a f0 f1 st2 st' R0 R1 An b0 b1 T J) as (J2 & _).
  apply (Tw b0 b1); auto. eapply over_unchanged; eauto; [apply (p_inv _ _ P2)|reflexivity].
Qed.
(** ** The output *)
Definition left_alone (o : gopts) (st : gst) (b0 b1 : cblock) : Prop :=
  (forall n n' p, original_part o st b0 n n' p -> as_it_was o st b0 n n' p)
  /\ (forall n n' p, new_part o st b1 n n' p -> n' = n /\ p = [])
  /\ (forall m n n' p, unlinked_part o st m b1 n n' p -> n' = n /\ p = []).
Theorem unchanged_left a o buf i0 i1 out : gensrc a o buf i0 i1 = Ok out ->
  exists f0 f1 st, run_of a o buf i0 i1 f0 f1 st /\ output_of o st out
    /\ (labels_apart f0 -> labels_apart f1 -> labels_once f0 -> labels_once f1 ->
        forall b0 b1, joined st b0 b1 -> b_type b0 = BFunc -> b_type b1 = BFunc ->
          in_syms_list None (g_base (s_1 st)) (txt (b_hname b1)) (go_unlink o) = false ->
          unchanged o f0 f1 st b0 b1 -> left_alone o st b0 b1).
Proof.
  intros H. destruct (gensrc_spec _ _ _ _ _ _ H) as (f0 & f1 & st' & Ru & R0 & R1 & _ & _ & Out).
  pose proof (ru_an _ _ _ _ _ _ _ _ Ru) as E. destruct (analyze_ok _ _ _ _ _ R0 R1 E) as (st & A & V & F). exists f0, f1, st'. split; auto. split; auto.
  intros La0 La1 Lo0 Lo1 b0 b1 J T0 T1 Nu U. pose proof (analyze_twins a o f0 f1 st' R0 R1 La0 La1 Lo0 Lo1 E b0 b1 J T0 T1 U) as Ig.
  destruct (an_func a f0 f1 st st' R0 R1 A b0 b1 T0 J) as (_ & _ & P & _). destruct J as (I0 & I1 & P0).
  assert (Uf : b_unlink b1 = false).
  { destruct (b_unlink b1) eqn:Q; auto. destruct (final_unlink f0 f1 st st' A o b1 F I1 T1 Q) as (X & _). congruence. }
  split; [|split].
  - intros n n' p. unfold original_part, as_it_was. rewrite T0. intros (g & t & q & -> & G & Pr & [(c1 & c & _ & (_ & K & Kp) & Nc & _)|(_ & -> & ->)]).
    + assert (c1 = b1) by (apply (nodup_start (g_blocks (s_1 st'))); auto; [eapply an_wf; eauto|congruence]). congruence.
    + split; auto. exists g, t. rewrite app_nil_r. auto.
  - intros n n' p. unfold new_part. now rewrite P.
  - intros m n n' p. unfold unlinked_part. now rewrite Uf.
Qed.
