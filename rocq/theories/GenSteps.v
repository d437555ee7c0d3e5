(** The passes of the analysis are made of the steps of GenFrame. *)
From Coq Require Import String.
From Verif Require Import Base BaseProofs StorageModel TextModel TextSpec TextProofs ParseModel ParseProofs RenameModel RenameSpec
  RenameProofs CmpModel CmpProofs GenModel GenSpec GenFrame.
Open Scope list_scope.

(** ** Tables *)
Lemma add_find r s d r' : rename_add r s d = Ok r' ->
  forall n e, rename_find r' n = Some e -> rename_find r n = Some e \/ (n = s /\ e = d).
Proof.
  unfold rename_add. intros H n e E. destruct (same s d); [injection H as <-; auto|].
  destruct (rename_find r s) as [d'|].
  - destruct (same d' d); [injection H as <-; auto|discriminate].
  - injection H as <-. rewrite find_cons in E. destruct (same s n) eqn:S; auto. apply same_spec in S. right. split; congruence.
Qed.
Lemma del_find r s n e : rename_find (rename_del r s) n = Some e -> rename_find r n = Some e /\ n <> s.
Proof.
  rewrite find_del. destruct (same s n) eqn:S; [discriminate|]. intros H. split; auto. intros ->. now rewrite same_refl in S.
Qed.
Lemma ren0_step st n d st' : stands_for0 st n d -> ren0 st n d = Ok st' -> step st st'.
Proof.
  unfold ren0. intros H E. inv_do E. injection E as <-. apply st_ren0. intros m e Em.
  destruct (add_find _ _ _ _ E0 m e Em) as [|(-> & ->)]; auto.
Qed.
Lemma ren1_step st n d st' : stands_for1 st n d -> ren1 st n d = Ok st' -> step st st'.
Proof.
  unfold ren1. intros H E. inv_do E. injection E as <-. apply st_ren1. intros m e Em.
  destruct (add_find _ _ _ _ E0 m e Em) as [|(-> & ->)]; auto.
Qed.
Lemma del0_step n st : step st (del0 n st).
Proof. apply st_ren0. intros m e Em. left. now apply del_find in Em. Qed.
Lemma del1_step n st : step st (del1 n st).
Proof. apply st_ren1. intros m e Em. left. now apply del_find in Em. Qed.
(** Steps that leave the blocks *)
Record quiet (st st' : gst) : Prop := {
  q_steps : steps st st';
  q_0 : g_blocks (s_0 st') = g_blocks (s_0 st); q_1 : g_blocks (s_1 st') = g_blocks (s_1 st) }.
Lemma quiet_refl st : quiet st st.
Proof. split; auto. constructor. Qed.
Lemma quiet_trans a b c : quiet a b -> quiet b c -> quiet a c.
Proof. intros [] []. split; [eapply steps_trans; eauto|congruence|congruence]. Qed.
Lemma quiet_ren0 st n d st' : stands_for0 st n d -> ren0 st n d = Ok st' -> quiet st st'.
Proof.
  intros H E. split; [apply steps_one; eapply ren0_step; eauto| |]; unfold ren0 in E; inv_do E; injection E as <-; reflexivity.
Qed.
Lemma quiet_ren1 st n d st' : stands_for1 st n d -> ren1 st n d = Ok st' -> quiet st st'.
Proof.
  intros H E. split; [apply steps_one; eapply ren1_step; eauto| |]; unfold ren1 in E; inv_do E; injection E as <-; reflexivity.
Qed.
Lemma quiet_del0 n st : quiet st (del0 n st).
Proof. split; auto. apply steps_one, del0_step. Qed.
Lemma quiet_del1 n st : quiet st (del1 n st).
Proof. split; auto. apply steps_one, del1_step. Qed.

(** ** Variables *)
Lemma var_cmp_quiet o st b0 b1 d st' : var_cmp o st b0 b1 = Ok (d, st') ->
  quiet st st' /\ (d = false -> hname b0 = hname b1).
Proof.
  unfold var_cmp. intros H.
  destruct (match b_pair b1 with Some p => negb (Nat.eqb p (b_start b0)) | None => false end);
    [injection H as <- <-; split; [apply quiet_refl|discriminate]|].
  destruct (match rename_find _ _ with Some d => _ | None => false end);
    [injection H as <- <-; split; [apply quiet_refl|discriminate]|].
  destruct (same (hname b0) (hname b1)) eqn:Hn; cbn [negb] in H; [|injection H as <- <-; split; [apply quiet_refl|discriminate]].
  bind H as u1 E. bind H as u2 E0. bind H as u3 E1. injection H as <- <-. split; [|intros _; now apply same_spec].
  unfold ren0 in E. bind E as x2 E2. injection E as <-. unfold ren1 in E0. bind E0 as x3 E. injection E0 as <-.
  change (g_ren (s_1 (with_0 st (with_ren (s_0 st) x2)))) with (g_ren (s_1 st)) in E.
  split; auto.
  apply ss_step with (st' := with_0 st (with_ren (s_0 st) (rename_del x2 (name b0)))).
  - apply steps_one, st_ren0. intros n e En. left. apply del_find in En as (En & Nn).
    destruct (add_find _ _ _ _ E2 n e En) as [|(-> & _)]; auto. congruence.
  - eapply (st_ren1 (with_0 st (with_ren (s_0 st) (rename_del x2 (name b0)))) (rename_del x3 (name b1))).
    intros n e En. left. apply del_find in En as (En & Nn).
    destruct (add_find _ _ _ _ E n e En) as [|(-> & _)]; auto. congruence.
Qed.
Lemma var_search_quiet o b0 : forall ss st q st', var_search o st b0 ss = Ok (q, st') ->
  quiet st st' /\ forall s, q = Some s -> exists c1, In c1 (g_blocks (s_1 st)) /\ b_start c1 = s /\ hname b0 = hname c1.
Proof.
  induction ss as [|s ss IH]; intros st q st' H; cbn [var_search] in H.
  - injection H as <- <-. split; [apply quiet_refl|discriminate].
  - destruct (getb (s_1 st) s) as [c1|] eqn:G; [|now apply IH].
    destruct (btype_beq (b_type c1) BVar); [|now apply IH]. inv_do H. destruct x as [d st1]. cbn [fst snd] in H.
    apply var_cmp_quiet in E as (Q & Hd). destruct d.
    + apply IH in H as (Q' & Hq). split; [eapply quiet_trans; eauto|]. now rewrite (q_1 _ _ Q) in Hq.
    + injection H as <- <-. split; auto. intros s' [= <-]. apply getb_in in G as (I & S). exists c1. auto.
Qed.
Lemma var_try_quiet o st b0 b1 q st' : var_try o st b0 b1 = Ok (q, st') ->
  quiet st st' /\ forall s, q = Some s -> exists c1, In c1 (g_blocks (s_1 st)) /\ b_start c1 = s
     /\ ((b_auto b0 = false /\ name b0 = name c1) \/ (b_auto b0 = true /\ hname b0 = hname c1)).
Proof.
  unfold var_try. intros H. destruct (b_auto b0) eqn:Au; cbn [negb] in H.
  - inv_do H. destruct x as [d st1]. cbn [fst snd] in H.
    assert (Q : quiet st st1 /\ (d = false -> exists c1 s, b1 = Some s /\ In c1 (g_blocks (s_1 st)) /\ b_start c1 = s /\ hname b0 = hname c1)).
    { destruct b1 as [s|]; [|injection E as <- <-; split; [apply quiet_refl|discriminate]].
      destruct (getb (s_1 st) s) as [c1|] eqn:G; [|injection E as <- <-; split; [apply quiet_refl|discriminate]].
      apply var_cmp_quiet in E as (Q & Hd). split; auto. intros Ed. apply getb_in in G as (I & S). exists c1, s. auto. }
    destruct Q as (Q & Hd). destruct d.
    + apply var_search_quiet in H as (Q' & Hq). split; [eapply quiet_trans; eauto|].
      intros s Es. rewrite (q_1 _ _ Q) in Hq. destruct (Hq s Es) as (c1 & ? & ? & ?). exists c1. auto.
    + injection H as <- <-. split; auto. intros s Es. destruct (Hd eq_refl) as (c1 & s' & E' & ? & ? & ?). exists c1.
      split; auto. split; [congruence|auto].
  - injection H as <- <-. split; [apply quiet_refl|]. intros s Es.
    unfold find_by_name in Es. destruct (find _ (g_blocks (s_1 st))) as [c|] eqn:F; [|discriminate]. injection Es as <-.
    apply find_some in F as (I & S). exists c. split; auto. split; auto. left. split; auto. symmetry. now apply same_spec.
Qed.

(** No function of the first file is joined yet. *)
Definition no_func (st : gst) : Prop := forall b, In b (g_blocks (s_0 st)) -> b_type b = BFunc -> b_pair b = None.
Lemma quiet_no_func st st' : quiet st st' -> no_func st -> no_func st'.
Proof. intros [_ Q _] N b I. rewrite Q in I. auto. Qed.
(** The state in a pass that begins in [st0] *)
Record pass (st0 st : gst) : Prop := { p_begin : inv st0; p_steps : steps st0 st; p_inv : inv st }.
Lemma pass_quiet st0 st st' : pass st0 st -> quiet st st' -> pass st0 st'.
Proof. intros [B S I] [Q _ _]. split; [auto|eapply steps_trans; eauto|eapply steps_inv; eauto]. Qed.
Lemma pass_step st0 st st' : pass st0 st -> step st st' -> pass st0 st'.
Proof. intros [B S I] H. split; [auto|eapply ss_step; eauto|eapply step_inv; eauto]. Qed.

Lemma var_round_step_pass o z st0 s x x' : pass st0 (fst (fst x)) -> no_func (fst (fst x)) ->
  var_round_step o z s x = Ok x' -> pass st0 (fst (fst x')) /\ no_func (fst (fst x')).
Proof.
  destruct x as [[st b1] pr]. cbn [fst]. unfold var_round_step. intros P N H.
  destruct (getb (s_0 st) s) as [b0|] eqn:G; [|injection H as <-; auto].
  destruct (btype_beq (b_type b0) BVar) eqn:T; cbn [negb] in H; [|injection H as <-; auto].
  destruct (b_pair b0) as [p|] eqn:Np; [injection H as <-; auto|].
  destruct (z && starts (name b0) desc_str); [injection H as <-; auto|].
  inv_do H. destruct x as [q st1]. cbn [fst snd] in H. apply var_try_quiet in E as (Q & Hq).
  pose proof (pass_quiet _ _ _ P Q) as P1. pose proof (quiet_no_func _ _ Q N) as N1.
  destruct q as [s1|]; [|injection H as <-; auto].
  destruct (getb (s_1 st1) s1) as [c1|] eqn:G1; [|discriminate].
  bind H as u1 E. bind H as u2 E0. injection H as <-. cbn [fst].
  apply getb_in in G as (I0 & <-). apply getb_in in G1 as (I1 & <-).
  assert (T' : b_type b0 = BVar) by (destruct (b_type b0); try discriminate; reflexivity).
  assert (Na : named_alike b0 c1).
  { split; auto. destruct (Hq _ eq_refl) as (d1 & J & S & Hn).
    rewrite <- (q_1 _ _ Q) in J. assert (d1 = c1) as -> by (eapply nodup_start; eauto; apply (i_wf _ (p_inv _ _ P1))).
    destruct Hn as [(A & B)|(A & B)]; [left; auto|right]. split; auto. split; auto. rewrite T'. discriminate. }
  rewrite <- (q_0 _ _ Q) in I0.
  pose (J := join (b_start b0) (b_start c1) st1).
  assert (SJ : step st1 J).
  { apply st_join; auto. intros b Ib Tb. rewrite (N1 b Ib Tb). discriminate. }
  unfold ren0 in E. bind E as x1 E1. injection E as <-. unfold ren1 in E0. bind E0 as x2 E. injection E0 as <-.
  change (g_ren (s_1 (with_0 st1 (with_ren (s_0 st1) x1)))) with (g_ren (s_1 st1)) in E.
  assert (Jj : joined J (set_pair (b_start c1) b0) (set_pair (b_start b0) c1)).
  { split; [|split].
    - apply updb_in. exists b0. now rewrite Nat.eqb_refl.
    - unfold J. cbn [join upd0 upd1 s_0 s_1 with_0 with_1]. apply updb_in. exists c1. now rewrite Nat.eqb_refl.
    - reflexivity. }
  pose (K := with_0 J (with_ren (s_0 J) x1)).
  assert (SK : step J K).
  { apply st_ren0. intros n d En. destruct (add_find _ _ _ _ E1 n d En) as [|(-> & ->)]; auto. right.
    exists (set_pair (b_start c1) b0), (set_pair (b_start b0) c1). split; auto. }
  assert (Jk : joined K (set_pair (b_start c1) b0) (set_pair (b_start b0) c1)) by exact Jj.
  pose (M := with_1 K (with_ren (s_1 K) x2)).
  assert (SM : step K M).
  { apply st_ren1. intros n d En. destruct (add_find _ _ _ _ E n d En) as [|(-> & ->)]; auto. right. left.
    exists (set_pair (b_start c1) b0), (set_pair (b_start b0) c1). split; auto. }
  change (pass st0 M /\ no_func M). split.
  - eapply pass_step; [|exact SM]. eapply pass_step; [|exact SK]. eapply pass_step; [exact P1|exact SJ].
  - intros b Ib Tb. change (In b (g_blocks (updb (b_start b0) (set_pair (b_start c1)) (s_0 st1)))) in Ib.
    apply updb_in in Ib as (c & Ic & ->). destruct (Nat.eqb (b_start c) (b_start b0)) eqn:S; [|auto].
    apply Nat.eqb_eq in S. assert (c = b0) as -> by (eapply nodup_start; eauto; apply (i_wf _ (p_inv _ _ P1))).
    cbn in Tb. congruence.
Qed.
Lemma var_rounds_pass o st0 : forall n p st st', pass st0 st -> no_func st -> var_rounds o n p st = Ok st' ->
  pass st0 st' /\ no_func st'.
Proof.
  induction n as [|n IH]; intros p st st' P N H; cbn [var_rounds] in H; [discriminate|].
  inv_do H. destruct x as [st1 pr]. cbn [fst snd] in H. unfold var_round in E. inv_do E. injection E as <- <-.
  apply (rfold_inv _ (fun _ x => pass st0 (fst (fst x)) /\ no_func (fst (fst x)))) in E0; [|intros ? ? ? ? (A & B) C; eapply var_round_step_pass; eauto|auto].
  destruct E0 as (P1 & N1). destruct (Nat.ltb _ 2); [eapply IH; eauto|]. injection H as <-. auto.
Qed.
Lemma each0_same g st st' : (forall b s s', g b s = Ok s' -> s' = s) -> each0 g st = Ok st' -> st' = st.
Proof.
  intros K H. unfold each0 in H. apply (rfold_inv _ (fun _ s => s = st)) in H; auto.
  intros x r s s' -> E. destruct (getb (s_0 st) x); [eauto|congruence].
Qed.
Lemma analyze_var_pass o st st' : inv st -> no_func st -> analyze_var o st = Ok st' -> pass st st' /\ no_func st'.
Proof.
  intros I N H. unfold analyze_var in H. bind H as x E. bind H as x0 E0. unfold var_matches in E. bind E as x1 E1.
  apply (var_rounds_pass o st) in E1 as (P & N1); auto; [|split; [auto|constructor|auto]].
  apply each0_same in E; [|intros b s s' B; unfold var_removed in B; destruct (_ && _); congruence]. subst x.
  apply each0_same in E0.
  2: { intros b s s' B. unfold var_check in B. destruct (negb _); [congruence|]. destruct (b_pair b); [|congruence].
       destruct (in_syms_list _ _ _ _); [congruence|]. destruct (getb _ _); [|discriminate]. inv_do B. destruct x; congruence. }
  subst x0. unfold each1 in H.
  apply (rfold_inv _ (fun _ s => pass st s /\ no_func s)) in H; auto.
  intros s r a b (Pa & Na) E. destruct (getb (s_1 a) s) as [b1|] eqn:G; [|injection E as <-; auto].
  destruct (_ && _); [|injection E as <-; auto]. unfold new_name1 in E.
  assert (Q : quiet a b).
  { eapply quiet_ren1; [|exact E]. right. split; [reflexivity|]. apply getb_in in G as (G & _). eauto. }
  split; [eapply pass_quiet; eauto|eapply quiet_no_func; eauto].
Qed.

(** ** Functions: labels *)
Lemma match_labels_add : forall l0 l1 r r', match_labels true r l0 l1 = Ok r' ->
  forall n d, rename_find r' n = Some d -> rename_find r n = Some d
    \/ exists i x0 x1, nth_error l0 i = Some x0 /\ nth_error l1 i = Some x1 /\ l_text x0 <> l_text x1
                       /\ n = label_name x0 /\ d = label_name x1.
Proof.
  induction l0 as [|x0 l0 IH]; intros [|x1 l1] r r' H n d E; cbn [match_labels] in H; try (injection H as <-; auto).
  destruct (list_eqb (l_text x0) (l_text x1)) eqn:Eq.
  - destruct (IH _ _ _ H n d E) as [A|(i & y0 & y1 & A & B & C)]; auto. right. exists (S i), y0, y1. auto.
  - assert (Ne : l_text x0 <> l_text x1) by (intros X; rewrite X in Eq; rewrite (proj2 (list_eqb_eq (l_text x1) (l_text x1)) eq_refl) in Eq; discriminate).
    destruct (get_token (Some (l_text x0))) as [t0 s0] eqn:G0. destruct (get_token (Some (l_text x1))) as [t1 s1] eqn:G1.
    bind H as r1 A.
    assert (H' : match_labels true r1 l0 l1 = Ok r').
    { repeat match type of H with context [match ?x with _ => _ end] => destruct x; try discriminate H end. exact H. }
    destruct (IH _ _ _ H' n d E) as [A'|(i & y0 & y1 & A' & B & C)]; [|right; exists (S i), y0, y1; auto].
    destruct (add_find _ _ _ _ A n d A') as [|(-> & ->)]; auto. right. exists 0%nat, x0, x1. repeat split; auto.
    + unfold label_name. now rewrite G0.
    + unfold label_name. now rewrite G1.
Qed.
Lemma match_labels_del : forall l0 l1 r r', match_labels false r l0 l1 = Ok r' ->
  forall n d, rename_find r' n = Some d -> rename_find r n = Some d
    /\ forall i x0 x1, nth_error l0 i = Some x0 -> nth_error l1 i = Some x1 -> l_text x0 <> l_text x1 -> n <> label_name x0.
Proof.
  induction l0 as [|x0 l0 IH]; intros [|x1 l1] r r' H n d E; cbn [match_labels] in H;
    try (injection H as <-; split; auto; intros [|i] y0 y1 A0 A1; discriminate).
  destruct (list_eqb (l_text x0) (l_text x1)) eqn:Eq.
  - destruct (IH _ _ _ H n d E) as (A & B). split; auto. intros [|i] y0 y1 A0 A1 Ne; [|eapply B; eauto].
    cbn in A0, A1. injection A0 as <-. injection A1 as <-. exfalso. apply Ne. now apply list_eqb_eq.
  - destruct (get_token (Some (l_text x0))) as [t0 s0] eqn:G0. destruct (get_token (Some (l_text x1))) as [t1 s1] eqn:G1.
    bind H as r1 A. injection A as <-.
    assert (H' : match_labels false (rename_del r (txt t0)) l0 l1 = Ok r').
    { repeat match type of H with context [match ?x with _ => _ end] => destruct x; try discriminate H end. exact H. }
    destruct (IH _ _ _ H' n d E) as (A & B). apply del_find in A as (A & Nn). split; auto.
    intros [|i] y0 y1 A0 A1 Ne; [|eapply B; eauto]. cbn in A0. injection A0 as <-. unfold label_name. now rewrite G0.
Qed.
Lemma new_labels_find nm : forall ls r r', new_labels nm r ls = Ok r' ->
  forall n d, rename_find r' n = Some d -> rename_find r n = Some d
    \/ (d = kpatch_name n /\ n <> nm /\ exists i x, nth_error ls i = Some x /\ n = label_name x).
Proof.
  induction ls as [|x ls IH]; intros r r' H n d E; cbn [new_labels] in H; [injection H as <-; auto|].
  destruct (get_token (Some (l_text x))) as [t s] eqn:G.
  assert (W : forall r1, new_labels nm r1 ls = Ok r' -> rename_find r1 n = Some d
    \/ (d = kpatch_name n /\ n <> nm /\ exists i y, nth_error (x :: ls) i = Some y /\ n = label_name y)).
  { intros r1 H1. destruct (IH _ _ H1 n d E) as [A|(A & B & i & y & C & D)]; auto. right. repeat split; auto. exists (S i), y. auto. }
  destruct s as [[|c s]|]; try discriminate. destruct (Z.eq_dec c 58) as [->|Nc].
  2: { exfalso. clear - H Nc. destruct c as [|p|p]; try discriminate H. repeat (destruct p as [p|p|]; try discriminate H). congruence. }
  destruct (same (txt t) nm) eqn:S; [auto|]. bind H as r1 A. destruct (W _ H) as [B|B]; auto.
  destruct (add_find _ _ _ _ A n d B) as [|(-> & ->)]; auto. right. split; auto. split.
  - intros X. rewrite X, same_refl in S. discriminate.
  - exists 0%nat, x. split; auto. unfold label_name. now rewrite G.
Qed.
Lemma make_new_labels_quiet b1 st st' : In b1 (g_blocks (s_1 st)) -> b_type b1 = BFunc ->
  make_new_labels b1 st = Ok st' -> quiet st st'.
Proof.
  intros I T H. unfold make_new_labels in H. bind H as r E. injection H as <-. split; auto. apply steps_one, st_ren1.
  intros n d En. destruct (new_labels_find _ _ _ _ E n d En) as [|(-> & _ & i & x & Hx & ->)]; auto. right. right.
  split; [reflexivity|]. exists b1. split; auto. right. split; auto. exists i. now apply nth_label_of.
Qed.

(** ** Functions: joining *)
Lemma func_join_steps b0 b1 st st' : In b0 (g_blocks (s_0 st)) -> In b1 (g_blocks (s_1 st)) -> b_pair b0 = None ->
  named_alike b0 b1 -> b_type b0 = BFunc ->
  (forall b, In b (g_blocks (s_0 st)) -> b_type b = BFunc -> b_pair b <> Some (b_start b1)) ->
  func_join b0 b1 st = Ok st' -> step st (join (b_start b0) (b_start b1) st) /\ quiet (join (b_start b0) (b_start b1) st) st'.
Proof.
  intros I0 I1 Np Na T No H. split; [now apply st_join|]. unfold func_join in H.
  set (J := join (b_start b0) (b_start b1) st) in *.
  assert (Jj : joined J (set_pair (b_start b1) b0) (set_pair (b_start b0) b1)).
  { split; [|split].
    - apply updb_in. exists b0. now rewrite Nat.eqb_refl.
    - unfold J. cbn [join upd0 upd1 s_0 s_1 with_0 with_1]. apply updb_in. exists b1. now rewrite Nat.eqb_refl.
    - reflexivity. }
  clearbody J. bind H as A EA. bind H as B EB.
  assert (QA : quiet J A).
  { unfold match_func_labels in EA. bind EA as r Er. injection EA as <-. split; auto. apply steps_one, st_ren0. intros n d En.
    destruct (match_labels_add _ _ _ _ Er n d En) as [|(i & x0 & x1 & H0 & H1 & _ & -> & ->)]; auto. right.
    exists (set_pair (b_start b1) b0), (set_pair (b_start b0) b1). split; auto. right. split; auto. exists i. split; now apply nth_label_of. }
  assert (JA : forall X, quiet J X -> joined X (set_pair (b_start b1) b0) (set_pair (b_start b0) b1)).
  { intros X [_ Q0 Q1]. unfold joined in *. now rewrite Q0, Q1. }
  assert (QD : quiet J (del0 (name b0) A)) by (eapply quiet_trans; [exact QA|apply quiet_del0]).
  assert (QB : quiet J B).
  { eapply quiet_trans; [exact QD|]. eapply quiet_ren1; [|exact EB]. right. split; [reflexivity|].
    exists (set_pair (b_start b0) b1). split; [apply (JA _ QD)|left; reflexivity]. }
  eapply quiet_trans; [exact QB|]. eapply quiet_ren0; [|exact H].
  exists (set_pair (b_start b1) b0), (set_pair (b_start b0) b1). split; [apply (JA _ QB)|]. left. split; [reflexivity|right; reflexivity].
Qed.
Lemma pass_join st0 st b0 b1 st' : pass st0 st -> In b0 (g_blocks (s_0 st)) -> In b1 (g_blocks (s_1 st)) -> b_pair b0 = None ->
  named_alike b0 b1 -> b_type b0 = BFunc ->
  (forall b, In b (g_blocks (s_0 st)) -> b_type b = BFunc -> b_pair b <> Some (b_start b1)) ->
  func_join b0 b1 st = Ok st' ->
  pass st0 st' /\ g_blocks (s_0 st') = g_blocks (updb (b_start b0) (set_pair (b_start b1)) (s_0 st))
  /\ g_blocks (s_1 st') = g_blocks (updb (b_start b1) (set_pair (b_start b0)) (s_1 st)).
Proof.
  intros P I0 I1 Np Na T No H. destruct (func_join_steps b0 b1 st st' I0 I1 Np Na T No H) as (S & Q).
  split; [|split; [exact (q_0 _ _ Q)|exact (q_1 _ _ Q)]]. eapply pass_quiet; [|exact Q]. eapply pass_step; eauto.
Qed.

(** Names of blocks of a file, where not empty, are different. *)
Definition names (f : gfile) : Prop := forall b c, In b (g_blocks f) -> In c (g_blocks f) -> name b = name c -> name b <> [] -> b = c.
Definition func_names (f : gfile) : Prop := forall b, In b (g_blocks f) -> b_type b = BFunc -> name b <> [].
Lemma names_like f g : NoDup (starts_of f) -> like f g -> names f -> names g.
Proof.
  intros W L N b c Ib Ic E Ne. destruct (like_in _ _ _ L Ib) as (b' & Jb & Ab), (like_in _ _ _ L Ic) as (c' & Jc & Ac).
  assert (b' = c').
  { destruct (alike_fields _ _ Ab) as (_ & _ & Eb & _), (alike_fields _ _ Ac) as (_ & _ & Ec & _). unfold name in *.
    rewrite Eb, Ec in *. apply N; auto. }
  subst c'. apply (nodup_start (g_blocks g)); auto.
  - fold (starts_of g). now rewrite (like_starts _ _ L).
  - destruct (alike_fields _ _ Ab) as (-> & _), (alike_fields _ _ Ac) as (-> & _). reflexivity.
Qed.
Lemma func_names_like f g : like f g -> func_names f -> func_names g.
Proof.
  intros L N b Ib T. destruct (like_in _ _ _ L Ib) as (b' & Jb & Ab). destruct (alike_fields _ _ Ab) as (_ & _ & En & _ & _ & Et & _).
  unfold name. rewrite En. apply N; auto. congruence.
Qed.

(** The first pass over functions: what is left to do is not joined, what is joined has one name. *)
Record exact_pass (st0 : gst) (rest : list nat) (st : gst) : Prop := {
  e_pass : pass st0 st;
  e_nodup : NoDup rest;
  e_rest : forall b, In b (g_blocks (s_0 st)) -> b_type b = BFunc -> In (b_start b) rest -> b_pair b = None;
  e_same : forall b c, In b (g_blocks (s_0 st)) -> In c (g_blocks (s_1 st)) -> b_type b = BFunc ->
             b_pair b = Some (b_start c) -> name b = name c }.
Lemma func_exact_pass st0 s rest st st' : names (s_0 st) -> func_names (s_0 st) -> exact_pass st0 (s :: rest) st ->
  match getb (s_0 st) s with Some b => func_exact b st | None => Ok st end = Ok st' -> exact_pass st0 rest st'.
Proof.
  intros Nm Fn [P Nd R Sm] H. inversion Nd as [|? ? Ns Nd']; subst.
  assert (Z : exact_pass st0 rest st) by (split; auto; intros b Ib Tb Hb; apply R; auto; now right).
  destruct (getb (s_0 st) s) as [b0|] eqn:G; [|injection H as <-; exact Z].
  apply getb_in in G as (I0 & S0). unfold func_exact in H.
  destruct (btype_beq (b_type b0) BFunc) eqn:T; cbn [negb orb] in H; [|injection H as <-; exact Z].
  assert (T' : b_type b0 = BFunc) by (destruct (b_type b0); try discriminate; reflexivity).
  destruct (b_auto b0) eqn:Au; [injection H as <-; exact Z|].
  destruct (find_by_name (g_blocks (s_1 st)) (name b0)) as [b1|] eqn:F; [|injection H as <-; exact Z].
  unfold find_by_name in F. apply find_some in F as (I1 & E1). apply same_spec in E1.
  assert (Np : b_pair b0 = None) by (apply R; auto; rewrite S0; now left).
  assert (No : forall b, In b (g_blocks (s_0 st)) -> b_type b = BFunc -> b_pair b <> Some (b_start b1)).
  { intros b Ib Tb Eb. pose proof (Sm b b1 Ib I1 Tb Eb) as En. unfold name in En. rewrite E1 in En.
    assert (b = b0) by (apply Nm; auto). congruence. }
  apply (pass_join st0) in H as (P' & B0 & B1); auto.
  2: { split; [now left|]. left. split; auto. }
  split; auto.
  - intros b Ib Tb Hb. rewrite B0 in Ib. apply updb_in in Ib as (c & Ic & ->).
    destruct (Nat.eqb (b_start c) (b_start b0)) eqn:S; [|apply R; auto; now right].
    apply Nat.eqb_eq in S. cbn in Hb. rewrite S, S0 in Hb. destruct (Ns Hb).
  - intros b c Ib Ic Tb Eb. rewrite B0 in Ib. rewrite B1 in Ic.
    apply updb_in in Ib as (b' & Ib & ->). apply updb_in in Ic as (c' & Ic & ->).
    assert (Ec : b_start (if Nat.eqb (b_start c') (b_start b1) then set_pair (b_start b0) c' else c') = b_start c') by (destruct (Nat.eqb (b_start c') (b_start b1)); reflexivity).
    rewrite Ec in Eb.
    assert (Enc : name (if Nat.eqb (b_start c') (b_start b1) then set_pair (b_start b0) c' else c') = name c') by (destruct (Nat.eqb (b_start c') (b_start b1)); reflexivity).
    rewrite Enc.
    destruct (Nat.eqb (b_start b') (b_start b0)) eqn:S.
    + apply Nat.eqb_eq in S. assert (b' = b0) as -> by (eapply nodup_start; eauto; apply (i_wf _ (p_inv _ _ P))).
      cbn in Eb. injection Eb as Eb. assert (c' = b1) as -> by (eapply nodup_start; eauto; apply (i_wf _ (p_inv _ _ P))). 
      change (name b0 = name b1). unfold name. now rewrite E1.
    + now apply Sm.
Qed.
Lemma pass_later st0 st : pass st0 st -> later st0 st.
Proof. intros [B S I]. apply steps_later; auto. apply B. Qed.
Lemma pass_names st0 st : pass st0 st -> names (s_0 st0) -> func_names (s_0 st0) -> names (s_0 st) /\ func_names (s_0 st).
Proof.
  intros P N F. destruct (pass_later _ _ P) as [L _ _ _]. split; [|eapply func_names_like; eauto].
  eapply names_like; eauto. apply (i_wf _ (p_begin _ _ P)).
Qed.
Lemma each0_exact st0 st st' : pass st0 st -> names (s_0 st0) -> func_names (s_0 st0) -> no_func st ->
  each0 func_exact st = Ok st' -> pass st0 st'.
Proof.
  intros P Nm Fn N H. unfold each0 in H.
  apply (rfold_inv _ (fun rest s => exact_pass st0 rest s)) in H.
  - apply H.
  - intros s r a b E Hs. destruct (pass_names _ _ (e_pass _ _ _ E) Nm Fn) as (Na & Fa). eapply func_exact_pass; eauto.
  - split; auto.
    + apply (i_wf _ (p_inv _ _ P)).
    + intros b c Ib Ic Tb Eb. rewrite (N b Ib Tb) in Eb. discriminate.
Qed.

(** The passes by the names without what the compiler appends *)
Lemma match_human_quiet o c b0 b1 st q st' : match_human o c b0 b1 st = Ok (q, st') ->
  quiet st st' /\ (forall b, q = Some b -> b1 = Some b /\ b_auto b = true /\ b_pair b = None).
Proof.
  unfold match_human. intros H. destruct b1 as [b1|]; [|injection H as <- <-; split; [apply quiet_refl|discriminate]].
  destruct (b_auto b1) eqn:A; cbn [negb orb] in H; [|injection H as <- <-; split; [apply quiet_refl|discriminate]].
  destruct (b_pair b1) as [p|] eqn:Np; [injection H as <- <-; split; [apply quiet_refl|discriminate]|].
  destruct c; [|injection H as <- <-; split; [apply quiet_refl|intros b [= <-]; auto]].
  bind H as u E. bind H as d Ed. bind H as v Ev. injection H as Hq Hs. subst st'. split; [|destruct d; subst q; [discriminate|intros b [= <-]; auto]].
  unfold match_func_labels in E, Ev. bind E as r Er. injection E as <-. bind Ev as r' Er'. injection Ev as <-.
  split; auto. apply steps_one. 
  apply (st_ren0 st r'). intros n e En. left.
  destruct (match_labels_del _ _ _ _ Er' n e En) as (X & Y). cbn [s_0 with_0 g_ren with_ren] in X.
  destruct (match_labels_add _ _ _ _ Er n e X) as [|(i & x0 & x1 & H0 & H1 & Ne & -> & ->)]; auto.
  destruct (Y i x0 x1 H0 H1 Ne eq_refl).
Qed.
Lemma func_human_pass o c st0 b0 st st' : pass st0 st -> In b0 (g_blocks (s_0 st)) -> func_human o c b0 st = Ok st' -> pass st0 st'.
Proof.
  intros P I0 H. unfold func_human in H.
  destruct (btype_beq (b_type b0) BFunc) eqn:T; cbn [negb orb] in H; [|injection H as <-; exact P].
  assert (T' : b_type b0 = BFunc) by (destruct (b_type b0); try discriminate; reflexivity).
  destruct (b_pair b0) as [p|] eqn:Np; cbn [orb] in H; [injection H as <-; exact P|].
  destruct (b_auto b0) eqn:Au; cbn [negb] in H; [|injection H as <-; exact P].
  bind H as x E. destruct x as [q st1]. cbn [fst snd] in H. apply match_human_quiet in E as (Q & Hq).
  pose proof (pass_quiet _ _ _ P Q) as P1. destruct q as [b1|]; [|injection H as <-; exact P1].
  destruct (Hq b1 eq_refl) as (F & A1 & Np1). unfold find_by_hname in F. apply find_some in F as (I1 & E1). apply same_spec in E1.
  rewrite <- (q_0 _ _ Q) in I0. rewrite <- (q_1 _ _ Q) in I1.
  apply (pass_join st0) in H as (P' & _); auto.
  - split; [now left|]. right. split; auto.
  - intros b Ib Tb Eb. destruct (i_fwd _ (p_inv _ _ P1) b _ Ib Eb) as (c1 & (J0 & J1 & J2) & _ & Hp).
    rewrite Eb in J2. injection J2 as J2. assert (c1 = b1) as -> by (eapply nodup_start; eauto; apply (i_wf _ (p_inv _ _ P1))).
    rewrite (Hp Tb) in Np1. discriminate.
Qed.
Lemma each0_pass st0 g st st' : (forall b s s', pass st0 s -> In b (g_blocks (s_0 s)) -> g b s = Ok s' -> pass st0 s') ->
  pass st0 st -> each0 g st = Ok st' -> pass st0 st'.
Proof.
  intros K P H. unfold each0 in H. apply (rfold_inv _ (fun _ s => pass st0 s)) in H; auto.
  intros s r a b Pa E. destruct (getb (s_0 a) s) as [b0|] eqn:G; [|congruence]. apply getb_in in G as (I & _). eauto.
Qed.
Lemma each1_pass st0 g st st' : (forall b s s', pass st0 s -> In b (g_blocks (s_1 s)) -> g b s = Ok s' -> pass st0 s') ->
  pass st0 st -> each1 g st = Ok st' -> pass st0 st'.
Proof.
  intros K P H. unfold each1 in H. apply (rfold_inv _ (fun _ s => pass st0 s)) in H; auto.
  intros s r a b Pa E. destruct (getb (s_1 a) s) as [b0|] eqn:G; [|congruence]. apply getb_in in G as (I & _). eauto.
Qed.
Lemma btype_func b : btype_beq (b_type b) BFunc = true -> b_type b = BFunc.
Proof. destruct (b_type b); try discriminate; reflexivity. Qed.
Lemma func_new_pass st0 b1 st st' : pass st0 st -> In b1 (g_blocks (s_1 st)) -> func_new b1 st = Ok st' -> pass st0 st'.
Proof.
  intros P I1 H. unfold func_new in H.
  destruct (btype_beq (b_type b1) BFunc) eqn:T; cbn [negb orb] in H; [|injection H as <-; exact P]. apply btype_func in T.
  destruct (b_pair b1); [injection H as <-; exact P|]. destruct (rename_find _ _); [injection H as <-; exact P|].
  bind H as x E.
  assert (Q : quiet st x).
  { destruct (b_auto b1); [|injection E as <-; apply quiet_refl]. eapply quiet_ren1; [|exact E]. right. split; [reflexivity|eauto]. }
  eapply pass_quiet; [|eapply make_new_labels_quiet; [|exact T|exact H]]; [eapply pass_quiet; eauto|]. now rewrite (q_1 _ _ Q).
Qed.
Lemma func_config_pass o st0 b1 st st' : pass st0 st -> In b1 (g_blocks (s_1 st)) -> func_config o b1 st = Ok st' -> pass st0 st'.
Proof.
  intros P I1 H. unfold func_config in H. destruct (negb _); [injection H as <-; exact P|].
  destruct (b_pair b1) as [s0|]; [|injection H as <-; exact P]. bind H as x E.
  assert (X : pass st0 x /\ exists c1, In c1 (g_blocks (s_1 x)) /\ b_start c1 = b_start b1).
  { destruct (in_syms_list (go_conf o) _ _ _); [|injection E as <-; eauto].
    destruct (getb (s_0 st) s0) as [b0|]; [|discriminate]. injection E as <-. split.
    - eapply pass_step; [|apply (st_ignore _ b1); exact I1]. eapply pass_quiet; [|apply quiet_del0].
      eapply pass_quiet; [exact P|apply quiet_del1].
    - exists (set_ignore b1). split; [|reflexivity]. apply updb_in. exists b1. rewrite Nat.eqb_refl. auto. }
  destruct X as (Px & c1 & Ic & Sc). injection H as <-. match goal with |- context [if ?c then _ else _] => destruct c end; auto.
  rewrite <- Sc. eapply pass_step; [exact Px|]. now apply st_unlink.
Qed.
Lemma func_changed_pass o st0 s x x' : pass st0 (fst x) -> func_changed o s x = Ok x' -> pass st0 (fst x').
Proof.
  destruct x as [st na]. cbn [fst]. intros P H. unfold func_changed in H.
  destruct (getb (s_1 st) s) as [b1|] eqn:G; [|injection H as <-; exact P].
  destruct (btype_beq (b_type b1) BFunc) eqn:T; cbn [negb orb] in H; [|injection H as <-; exact P]. apply btype_func in T.
  destruct (b_ignore b1); [injection H as <-; exact P|]. destruct (b_pair b1) as [s0|] eqn:Ep; [|injection H as <-; exact P].
  destruct (getb (s_0 st) s0) as [b0|] eqn:G0; [|discriminate]. bind H as d Ed.
  apply getb_in in G as (I1 & <-). apply getb_in in G0 as (I0 & <-).
  assert (J : joined st b0 b1).
  { destruct (i_back _ (p_inv _ _ P) b1 _ I1 Ep) as (c0 & J & S). destruct J as (J0 & J1 & J2).
    assert (c0 = b0) as -> by (eapply nodup_start; eauto; apply (i_wf _ (p_inv _ _ P))). now split. }
  destruct d; cbn [negb] in H.
  - bind H as y Ey. injection H as <-. cbn [fst]. eapply pass_quiet; [exact P|]. eapply make_new_labels_quiet; eauto.
  - bind H as y Ey. bind H as z Ez. injection H as <-. cbn [fst].
    assert (Q0 : quiet st y).
    { eapply quiet_trans; [|eapply quiet_ren0; [|exact Ey]].
      - eapply quiet_trans; [apply quiet_del0|apply quiet_del1].
      - exists b0, b1. split; [exact J|]. left. auto. }
    assert (Q1 : quiet y z).
    { eapply quiet_ren1; [|exact Ez]. left. exists b0, b1. split; auto. destruct Q0 as [_ Q0 Q1]. unfold joined in *. now rewrite Q0, Q1. }
    pose proof (quiet_trans _ _ _ Q0 Q1) as Q. eapply pass_step; [eapply pass_quiet; [exact P|exact Q]|].
    apply st_ignore. now rewrite (q_1 _ _ Q).
Qed.
Lemma analyze_func_pass o st0 st st' : pass st0 st -> names (s_0 st0) -> func_names (s_0 st0) -> no_func st ->
  analyze_func o st = Ok st' -> pass st0 st'.
Proof.
  intros P Nm Fn N H. unfold analyze_func in H. bind H as x1 E1. bind H as x2 E2. bind H as x3 E3. bind H as x4 E4. bind H as x5 E5.
  bind H as y E6.
  assert (P1 : pass st0 x1) by (eapply each0_exact; eauto).
  assert (P2 : pass st0 x2) by (eapply each0_pass; [|exact P1|exact E2]; intros; eapply func_human_pass; eauto).
  assert (P3 : pass st0 x3) by (eapply each0_pass; [|exact P2|exact E3]; intros; eapply func_human_pass; eauto).
  assert (P4 : pass st0 x4) by (eapply each1_pass; [|exact P3|exact E4]; intros; eapply func_new_pass; eauto).
  assert (P5 : pass st0 x5) by (eapply each1_pass; [|exact P4|exact E5]; intros; eapply func_config_pass; eauto).
  destruct y as [st6 na]. apply (rfold_inv _ (fun _ x => pass st0 (fst x))) in E6; [|intros; eapply func_changed_pass; eauto|exact P5].
  cbn [fst snd] in *. destruct na; [discriminate|]. injection H as <-. exact E6.
Qed.
