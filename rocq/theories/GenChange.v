(** Which functions and variables are found changed. *)
From Coq Require Import String.
From Verif Require Import Base BaseProofs StorageModel CliModel TextModel TextSpec TextProofs ParseModel ParseProofs RenameModel RenameSpec
  RenameProofs CmpModel CmpSpec CmpProofs CmpProperties ParseSpec GenModel DbgModel GenSpec GenFrame GenSteps GenOther GenLoad GenOut GenWhole.
Open Scope list_scope.

Lemma cmp_equal o st b0 b1 : inv st -> cmp_blocks o st true b0 b1 = Ok false -> equal_code o st b0 b1.
Proof.
  intros V H. unfold cmp_blocks in H. apply C43_equal_blocks_same_code in H; auto. cbn in H.
  exists (rename_find (g_ren (s_0 st))), (rename_find (g_ren (s_1 st))). split; [apply V|]. split; [apply V|exact H].
Qed.
Lemma equal_later o st st' b0 b1 c0 c1 : later st st' -> alike c0 b0 -> alike c1 b1 -> equal_code o st b0 b1 -> equal_code o st' c0 c1.
Proof.
  intros L A0 A1 (m0 & m1 & H0 & H1 & S). exists m0, m1. split; [intros; eapply stands_for0_later; eauto|].
  split; [intros; eapply stands_for1_later; eauto|]. destruct L as [L0 L1 _ _].
  rewrite (like_blines _ _ _ _ L0 A0), (like_blines _ _ _ _ L1 A1), (lk_dir _ _ L0), (lk_dir _ _ L1).
  destruct (alike_fields _ _ A0) as (_ & _ & -> & _ & _ & -> & _), (alike_fields _ _ A1) as (_ & _ & -> & _). exact S.
Qed.

(** ** Flags *)
Definition no_flags (st : gst) : Prop := forall b, In b (g_blocks (s_1 st)) -> b_ignore b = false /\ b_unlink b = false.
Lemma no_flags_blocks st st' : g_blocks (s_1 st') = g_blocks (s_1 st) -> no_flags st -> no_flags st'.
Proof. intros E N b I. rewrite E in I. auto. Qed.
Lemma no_flags_pair st st' s p : g_blocks (s_1 st') = g_blocks (updb s (set_pair p) (s_1 st)) -> no_flags st -> no_flags st'.
Proof.
  intros E N b I. rewrite E in I. apply updb_in in I as (c & I & ->). destruct (Nat.eqb _ _); cbn; auto.
Qed.
Lemma ren0_blocks st n d st' : ren0 st n d = Ok st' -> s_1 st' = s_1 st /\ g_blocks (s_0 st') = g_blocks (s_0 st).
Proof. unfold ren0. intros H. bind H as r E. injection H as <-. now split. Qed.
Lemma ren1_blocks st n d st' : ren1 st n d = Ok st' -> s_0 st' = s_0 st /\ g_blocks (s_1 st') = g_blocks (s_1 st).
Proof. unfold ren1. intros H. bind H as r E. injection H as <-. now split. Qed.
Lemma func_join_blocks b0 b1 st st' : func_join b0 b1 st = Ok st' ->
  g_blocks (s_0 st') = g_blocks (updb (b_start b0) (set_pair (b_start b1)) (s_0 st))
  /\ g_blocks (s_1 st') = g_blocks (updb (b_start b1) (set_pair (b_start b0)) (s_1 st)).
Proof.
  unfold func_join. intros H. bind H as u Eu. bind H as v Ev. unfold match_func_labels in Eu. bind Eu as r Er. injection Eu as <-.
  apply ren1_blocks in Ev as (E0 & E1). apply ren0_blocks in H as (F1 & F0). rewrite F0, F1, E0, E1. now split.
Qed.
Lemma make_new_labels_blocks b1 st st' : make_new_labels b1 st = Ok st' -> s_0 st' = s_0 st /\ g_blocks (s_1 st') = g_blocks (s_1 st).
Proof. unfold make_new_labels. intros H. bind H as r E. injection H as <-. now split. Qed.
Lemma func_exact_flags b0 st st' : func_exact b0 st = Ok st' -> no_flags st -> no_flags st'.
Proof.
  unfold func_exact. destruct (_ || _); [intros [= <-]; auto|]. destruct (find_by_name _ _) as [b1|]; [|intros [= <-]; auto].
  intros H. apply func_join_blocks in H as (_ & H). eapply no_flags_pair; eauto.
Qed.
Lemma func_human_flags o c b0 st st' : func_human o c b0 st = Ok st' -> no_flags st -> no_flags st'.
Proof.
  unfold func_human. destruct (_ || _); [intros [= <-]; auto|]. intros H. bind H as x E. destruct x as [q u]. cbn [fst snd] in H.
  apply match_human_quiet in E as (Q & _). intros N. apply (no_flags_blocks _ u (q_1 _ _ Q)) in N.
  destruct q as [b1|]; [|injection H as <-; auto]. apply func_join_blocks in H as (_ & H). eapply no_flags_pair; eauto.
Qed.
Lemma func_new_flags b1 st st' : func_new b1 st = Ok st' -> s_0 st' = s_0 st /\ g_blocks (s_1 st') = g_blocks (s_1 st).
Proof.
  unfold func_new. destruct (_ || _); [intros [= <-]; auto|]. destruct (rename_find _ _); [intros [= <-]; auto|].
  intros H. bind H as u E. apply make_new_labels_blocks in H as (-> & ->). destruct (b_auto b1); [|injection E as <-; auto].
  now apply ren1_blocks in E.
Qed.
Lemma each0_prop g (P : gst -> Prop) st st' : (forall b s s', In b (g_blocks (s_0 s)) -> g b s = Ok s' -> P s -> P s') -> each0 g st = Ok st' -> P st -> P st'.
Proof.
  intros K H P0. unfold each0 in H. apply (rfold_inv _ (fun _ s => P s)) in H; auto.
  intros s r a b Pa E. destruct (getb (s_0 a) s) as [b0|] eqn:G; [apply getb_in in G as (I & _); eauto|congruence].
Qed.
Lemma each1_prop g (P : gst -> Prop) st st' : (forall b s s', In b (g_blocks (s_1 s)) -> g b s = Ok s' -> P s -> P s') -> each1 g st = Ok st' -> P st -> P st'.
Proof.
  intros K H P0. unfold each1 in H. apply (rfold_inv _ (fun _ s => P s)) in H; auto.
  intros s r a b Pa E. destruct (getb (s_1 a) s) as [b0|] eqn:G; [apply getb_in in G as (I & _); eauto|congruence].
Qed.
Lemma var_round_flags o z s x x' : var_round_step o z s x = Ok x' -> no_flags (fst (fst x)) -> no_flags (fst (fst x')).
Proof.
  destruct x as [[st b1] pr]. unfold var_round_step. intros H N. cbn [fst] in N.
  destruct (getb (s_0 st) s) as [b0|]; [|injection H as <-; auto]. destruct (negb _); [injection H as <-; auto|].
  destruct (match b_pair b0 with Some _ => _ | None => _ end); [injection H as <-; auto|]. destruct (z && _); [injection H as <-; auto|].
  bind H as y E. destruct y as [q u]. cbn [fst snd] in H. apply var_try_quiet in E as (Q & _).
  apply (no_flags_blocks _ u (q_1 _ _ Q)) in N. destruct q as [s1|]; [|injection H as <-; auto].
  destruct (getb _ _) as [c1|]; [|discriminate]. bind H as v Ev. bind H as w Ew. injection H as <-. cbn [fst].
  apply ren0_blocks in Ev as (E1 & _). apply ren1_blocks in Ew as (_ & E2).
  apply (no_flags_pair u _ s1 s); auto. cbn [join upd0 upd1 s_0 s_1 with_0 with_1]. unfold updb. cbn [with_blocks g_blocks].
  rewrite E2, E1. reflexivity.
Qed.
Lemma var_rounds_flags o : forall n p st st', var_rounds o n p st = Ok st' -> no_flags st -> no_flags st'.
Proof.
  induction n as [|n IH]; intros p st st' H N; cbn [var_rounds] in H; [discriminate|].
  bind H as x E. destruct x as [u pr]. cbn [fst snd] in H. unfold var_round in E. bind E as y Ey. injection E as <- <-.
  apply (rfold_inv _ (fun _ x => no_flags (fst (fst x)))) in Ey; [|intros; eapply var_round_flags; eauto|auto].
  destruct (Nat.ltb _ 2); [eauto|]. now injection H as <-.
Qed.
Lemma each0_all g st : (forall b s s', g b s = Ok s' -> s' = s) -> NoDup (starts_of (s_0 st)) ->
  each0 g st = Ok st -> forall b, In b (g_blocks (s_0 st)) -> g b st = Ok st.
Proof.
  intros K N H b I. unfold each0 in H.
  assert (X : forall l s', rfold (fun s st => match getb (s_0 st) s with Some b => g b st | None => Ok st end) l st = Ok s' ->
              In (b_start b) l -> g b st = Ok st).
  { induction l as [|x l IH]; intros s' R J; [destruct J|]. cbn [rfold] in R. bind R as u Eu.
    assert (u = st) as -> by (destruct (getb (s_0 st) x); [eapply K; eauto|congruence]).
    destruct J as [->|J]; [|eauto]. rewrite (getb_of _ _ N I) in Eu. exact Eu. }
  eapply X; [exact H|]. unfold starts_of. now apply in_map.
Qed.

(** ** Variables *)
Definition var_ok (o : gopts) (st : gst) (b0 : cblock) : Prop :=
  match b_pair b0 with
  | None => temporary (name b0)
  | Some s1 => forall b1, In b1 (g_blocks (s_1 st)) -> b_start b1 = s1 -> left_out o st b0 b1 \/ equal_code o st b0 b1
  end.
Lemma may_vanish_temporary n : may_vanish n = true -> temporary n.
Proof.
  unfold may_vanish, temporary. rewrite !orb_true_iff, !starts_spec.
  intros [[[[(r & H)|(r & H)]|(r & H)]|(r & H)]|(r & H)];
    [exists ".LC"%string|exists "warned."%string|exists "__warned."%string|exists "__func__."%string|exists "descriptor."%string];
    exists r; split; auto; cbn; tauto.
Qed.
Lemma var_removed_same b s s' : var_removed b s = Ok s' -> s' = s.
Proof. unfold var_removed. destruct (_ && _); congruence. Qed.
Lemma var_check_same o b s s' : var_check o b s = Ok s' -> s' = s.
Proof.
  unfold var_check. intros B. destruct (negb _); [congruence|]. destruct (b_pair b); [|congruence].
  destruct (in_syms_list _ _ _ _); [congruence|]. destruct (getb _ _); [|discriminate]. bind B as d E. destruct d; congruence.
Qed.
Lemma var_ok_later o st st' b0 c0 : later st st' -> alike c0 b0 -> b_pair c0 = b_pair b0 -> var_ok o st b0 -> var_ok o st' c0.
Proof.
  intros L A E. unfold var_ok. rewrite E. destruct (alike_fields _ _ A) as (_ & _ & N0 & H0 & _ & T0 & _). unfold name. rewrite N0.
  destruct (b_pair b0) as [s1|]; auto. intros H c1 I S. destruct (like_in _ _ _ (la_1 _ _ L) I) as (b1 & J & A1).
  destruct (alike_fields _ _ A1) as (S1 & _ & _ & H1 & _). destruct (H b1 J ltac:(congruence)) as [Q|Q]; [left|right].
  - unfold left_out in *. rewrite (lk_base _ _ (la_1 _ _ L)), H0, H1, T0. exact Q.
  - eapply equal_later; eauto.
Qed.
Definition vars_ok (o : gopts) (st : gst) : Prop := forall b0, In b0 (g_blocks (s_0 st)) -> b_type b0 = BVar -> var_ok o st b0.
Lemma vars_ok_same o st st' : later st st' -> g_blocks (s_0 st') = g_blocks (s_0 st) -> vars_ok o st -> vars_ok o st'.
Proof. intros L E V b0 I T. rewrite E in I. eapply var_ok_later; eauto. reflexivity. Qed.
Lemma vars_ok_join o st st' b0 s : wf st -> later st st' -> In b0 (g_blocks (s_0 st)) -> b_type b0 = BFunc ->
  g_blocks (s_0 st') = g_blocks (updb (b_start b0) (set_pair s) (s_0 st)) -> vars_ok o st -> vars_ok o st'.
Proof.
  intros W L I0 T0 E V c0 I T. rewrite E in I. apply updb_in in I as (c & I & ->).
  destruct (Nat.eqb (b_start c) (b_start b0)) eqn:S.
  - apply Nat.eqb_eq in S. apply (nodup_start (g_blocks (s_0 st))) in S; auto; [|apply W]. subst c. cbn in T. congruence.
  - eapply var_ok_later; eauto. reflexivity.
Qed.
Lemma analyze_var_ok o st st' : inv st -> no_func st -> no_flags st -> analyze_var o st = Ok st' -> vars_ok o st' /\ no_flags st'.
Proof.
  intros I N F H. unfold analyze_var in H. bind H as x E. bind H as x0 E0. unfold var_matches in E. bind E as x1 E1.
  pose proof (var_rounds_flags _ _ _ _ _ E1 F) as F1.
  apply (var_rounds_pass o st) in E1 as (P & N1); auto; [|split; [auto|constructor|auto]].
  assert (x = x1) as -> by (eapply each0_same; [|exact E]; intros; eapply var_removed_same; eauto).
  assert (x0 = x1) as -> by (eapply each0_same; [|exact E0]; intros; eapply var_check_same; eauto).
  pose proof (p_inv _ _ P) as V. pose proof (i_wf _ V) as W.
  assert (V1 : vars_ok o x1).
  { intros b0 I0 T. apply (each0_all _ _ var_removed_same (wf_0 _ W)) with (b := b0) in E; auto.
    apply (each0_all _ _ (var_check_same o) (wf_0 _ W)) with (b := b0) in E0; auto.
    unfold var_removed in E. unfold var_check in E0. rewrite T in E, E0. cbn [btype_beq negb andb] in E, E0. unfold var_ok.
    destruct (b_pair b0) as [s1|] eqn:Ep.
    - intros b1 I1 S. destruct (in_syms_list None _ _ _) eqn:L; [left; right; auto|].
      rewrite <- S, (getb_of _ _ (wf_1 _ W) I1) in E0. bind E0 as d Ed. destruct d; [discriminate|]. right. now apply cmp_equal.
    - apply may_vanish_temporary. destruct (may_vanish (name b0)); auto. discriminate. }
  unfold each1 in H. apply (rfold_inv _ (fun _ s => pass st s /\ vars_ok o s /\ no_flags s)) in H; [tauto| |auto].
  intros s r a b (Pa & Va & Fa) E2. destruct (getb (s_1 a) s) as [b1|] eqn:G; [|injection E2 as <-; auto].
  destruct (_ && _); [|injection E2 as <-; auto]. unfold new_name1 in E2.
  assert (Q : quiet a b).
  { eapply quiet_ren1; [|exact E2]. right. split; [reflexivity|]. apply getb_in in G as (G & _). eauto. }
  split; [eapply pass_quiet; eauto|]. split; [|eapply no_flags_blocks; [apply Q|auto]].
  eapply vars_ok_same; [|apply Q|exact Va]. apply steps_later; [apply (p_inv _ _ Pa)|apply Q].
Qed.

(** ** Functions *)
Definition just (o : gopts) (st : gst) (b1 : cblock) : Prop :=
  exists b0, joined st b0 b1 /\ b_pair b1 = Some (b_start b0) /\ (left_out o st b0 b1 \/ equal_code o st b0 b1).
Definition to_unlink (o : gopts) (st : gst) (b1 : cblock) : Prop :=
  b_type b1 = BFunc /\ in_syms_list None (g_base (s_1 st)) (hname b1) (go_unlink o) = true.
Definition flags_ok (o : gopts) (st : gst) : Prop := forall b1, In b1 (g_blocks (s_1 st)) ->
  (b_ignore b1 = true -> just o st b1) /\ (b_unlink b1 = true -> to_unlink o st b1 /\ b_pair b1 <> None).
Lemma just_later o st st' b1 c1 : later st st' -> g_blocks (s_0 st') = g_blocks (s_0 st) -> In c1 (g_blocks (s_1 st')) -> alike c1 b1 ->
  b_pair c1 = b_pair b1 -> just o st b1 -> just o st' c1.
Proof.
  intros L E I A Ep (b0 & (J0 & J1 & J2) & P & H). destruct (alike_fields _ _ A) as (S1 & _ & _ & H1 & _).
  exists b0. split; [split; [now rewrite E|split; [auto|congruence]]|]. split; [congruence|].
  destruct H as [Q|Q]; [left|right]; [|eapply equal_later; eauto; reflexivity].
  unfold left_out in *. rewrite (lk_base _ _ (la_1 _ _ L)), H1. exact Q.
Qed.
Lemma to_unlink_later o st st' b1 c1 : later st st' -> alike c1 b1 -> to_unlink o st b1 -> to_unlink o st' c1.
Proof.
  intros L A. destruct (alike_fields _ _ A) as (_ & _ & _ & H1 & _ & T1 & _). unfold to_unlink, hname.
  now rewrite (lk_base _ _ (la_1 _ _ L)), H1, T1.
Qed.
Lemma flags_quiet o st st' : wf st -> quiet st st' -> flags_ok o st -> flags_ok o st'.
Proof.
  intros W Q F b1 I. pose proof (steps_later _ _ W (q_steps _ _ Q)) as L. pose proof I as I'. rewrite (q_1 _ _ Q) in I'. destruct (F b1 I') as (A & B). split.
  - intros X. eapply just_later; eauto; [apply Q|reflexivity].
  - intros X. destruct (B X). split; auto. eapply to_unlink_later; eauto. reflexivity.
Qed.
Lemma upd1_later st s g : keeps g -> later st (upd1 s g st).
Proof.
  intros K. split; auto using like_refl; [now apply updb_like|]. intros b0 I. exists b0. split; auto. split; [reflexivity|auto].
Qed.
Lemma flags_upd o st s g : keeps g -> (forall b, b_pair (g b) = b_pair b) -> flags_ok o st ->
  (forall b1, In b1 (g_blocks (s_1 st)) -> b_start b1 = s ->
     (b_ignore (g b1) = true -> just o st b1) /\ (b_unlink (g b1) = true -> to_unlink o st b1 /\ b_pair b1 <> None)) ->
  flags_ok o (upd1 s g st).
Proof.
  intros K Kp F H b1 I. pose proof (upd1_later st s g K) as L. pose proof I as I'. apply updb_in in I' as (c & Ic & ->).
  assert (A : alike (if Nat.eqb (b_start c) s then g c else c) c) by (destruct (Nat.eqb _ _); [apply K|reflexivity]).
  assert (P : b_pair (if Nat.eqb (b_start c) s then g c else c) = b_pair c) by (destruct (Nat.eqb _ _); auto).
  assert (X : (b_ignore (if Nat.eqb (b_start c) s then g c else c) = true -> just o st c)
    /\ (b_unlink (if Nat.eqb (b_start c) s then g c else c) = true -> to_unlink o st c /\ b_pair c <> None)).
  { destruct (Nat.eqb (b_start c) s) eqn:S; [apply Nat.eqb_eq in S; auto|auto]. }
  destruct X as (X & Y). split.
  - intros Z. eapply just_later; eauto.
  - intros Z. destruct (Y Z). split; [eapply to_unlink_later; eauto|now rewrite P].
Qed.
Lemma paired_back st b1 s0 b0 : inv st -> In b1 (g_blocks (s_1 st)) -> b_pair b1 = Some s0 -> getb (s_0 st) s0 = Some b0 ->
  joined st b0 b1 /\ b_pair b1 = Some (b_start b0).
Proof.
  intros V I1 Ep G. apply getb_in in G as (I0 & <-). destruct (i_back _ V b1 _ I1 Ep) as (c0 & (J0 & J1 & J2) & S).
  assert (c0 = b0) as -> by (eapply nodup_start; eauto; apply (i_wf _ V)). split; [now split|auto].
Qed.
Lemma func_config_flags o b1 st st' : inv st -> In b1 (g_blocks (s_1 st)) -> func_config o b1 st = Ok st' -> flags_ok o st -> flags_ok o st'.
Proof.
  intros V I1 H F. unfold func_config in H. destruct (btype_beq (b_type b1) BFunc) eqn:T; cbn [negb] in H; [|injection H as <-; auto].
  apply btype_func in T.
  destruct (b_pair b1) as [s0|] eqn:Ep; [|injection H as <-; auto]. bind H as x E.
  assert (Only : forall s b c, inv s -> In b (g_blocks (s_1 s)) -> In c (g_blocks (s_1 s)) -> b_start b = b_start c -> b = c)
    by (intros s b c Vs Ib Ic S; eapply nodup_start; eauto; apply (i_wf _ Vs)).
  assert (X : flags_ok o x /\ exists c1, In c1 (g_blocks (s_1 x)) /\ alike c1 b1 /\ b_pair c1 = b_pair b1 /\ NoDup (starts_of (s_1 x)) /\ g_base (s_1 x) = g_base (s_1 st)).
  { destruct (in_syms_list (go_conf o) (g_base (s_1 st)) (hname b1) (go_ignore o)) eqn:R.
    - destruct (getb (s_0 st) s0) as [b0|] eqn:G; [|discriminate]. injection E as <-.
      destruct (paired_back st b1 s0 b0 V I1 Ep G) as (J & P).
      assert (Q : quiet st (del0 (name b0) (del1 (name b1) st))) by (eapply quiet_trans; [apply quiet_del1|apply quiet_del0]).
      split.
      + apply flags_upd; [apply keeps_ignore|reflexivity|eapply flags_quiet; eauto; apply V|].
        intros b Ib S. assert (b = b1) as -> by (apply (Only st); auto). cbn [b_ignore b_unlink set_ignore]. split.
        * intros _. exists b0. split; [exact J|]. split; auto. left. left. exact R.
        * intros U. destruct (F b1 I1) as (_ & F2). destruct (F2 U) as (F3 & F4). split; [exact F3|congruence].
      + exists (set_ignore b1). split; [apply updb_in; exists b1; now rewrite Nat.eqb_refl|]. split; [reflexivity|]. split; [reflexivity|]. split; [|reflexivity].
        erewrite like_starts; [|apply updb_like, keeps_ignore]. exact (wf_1 _ (i_wf _ V)).
    - injection E as <-. split; auto. exists b1. split; auto. split; [reflexivity|]. split; auto. split; auto. apply V. }
  destruct X as (Fx & c1 & Ic & A & P & Nd & Eb).
  destruct (in_syms_list None (g_base (s_1 st)) (hname b1) (go_unlink o)) eqn:U; injection H as <-; auto.
  apply flags_upd; [apply keeps_unlink|reflexivity|auto|]. intros b Ib S.
  destruct (alike_fields _ _ A) as (S1 & _ & _ & H1 & _ & T1 & _).
  assert (b = c1) as -> by (eapply nodup_start; [exact Nd|auto|auto|congruence]).
  destruct (Fx c1 Ic) as (F1 & F2). split; [exact F1|]. intros _. split; [|congruence]. unfold to_unlink, hname. rewrite T1, H1, Eb. auto.
Qed.
Lemma func_changed_flags o s x x' : inv (fst x) -> func_changed o s x = Ok x' -> flags_ok o (fst x) -> flags_ok o (fst x').
Proof.
  destruct x as [st na]. cbn [fst]. intros V H F. unfold func_changed in H.
  destruct (getb (s_1 st) s) as [b1|] eqn:G; [|injection H as <-; auto].
  destruct (btype_beq (b_type b1) BFunc) eqn:T; cbn [negb orb] in H; [|injection H as <-; auto]. apply btype_func in T.
  destruct (b_ignore b1) eqn:Ig; [injection H as <-; auto|]. destruct (b_pair b1) as [s0|] eqn:Ep; [|injection H as <-; auto].
  destruct (getb (s_0 st) s0) as [b0|] eqn:G0; [|discriminate]. bind H as d Ed.
  apply getb_in in G as (I1 & <-). destruct (paired_back st b1 s0 b0 V I1 Ep G0) as (J & P).
  destruct d; cbn [negb] in H.
  - bind H as y Ey. injection H as <-. cbn [fst]. eapply flags_quiet; [apply V| |exact F]. eapply make_new_labels_quiet; eauto.
  - bind H as y Ey. bind H as z Ez. injection H as <-. cbn [fst].
    assert (Q0 : quiet st y).
    { eapply quiet_trans; [|eapply quiet_ren0; [|exact Ey]].
      - eapply quiet_trans; [apply quiet_del0|apply quiet_del1].
      - exists b0, b1. split; [exact J|]. left. auto. }
    assert (Q1 : quiet y z).
    { eapply quiet_ren1; [|exact Ez]. left. exists b0, b1. split; auto. destruct Q0 as [_ Q0 Q1]. unfold joined in *. now rewrite Q0, Q1. }
    pose proof (quiet_trans _ _ _ Q0 Q1) as Q. pose proof (steps_later _ _ (i_wf _ V) (q_steps _ _ Q)) as L.
    pose proof (flags_quiet o st z (i_wf _ V) Q F) as Fz. apply flags_upd; [apply keeps_ignore|reflexivity|exact Fz|].
    intros b Ib S. rewrite (q_1 _ _ Q) in Ib. assert (b = b1) as -> by (eapply nodup_start; eauto; apply (i_wf _ V)). split.
    + intros _. eapply just_later; [exact L|apply Q| |reflexivity|reflexivity|]; [now rewrite (q_1 _ _ Q)|].
      exists b0. split; auto. split; auto. right. now apply cmp_equal.
    + intros U. cbn in U. apply Fz; auto. now rewrite (q_1 _ _ Q).
Qed.

(** The variables of the first file keep their pairs. *)
Definition kept (P : cblock -> Prop) (st : gst) : Prop :=
  NoDup (starts_of (s_0 st)) /\ forall b, In b (g_blocks (s_0 st)) -> b_type b <> BFunc -> P b.
Lemma kept_same P st st' : g_blocks (s_0 st') = g_blocks (s_0 st) -> kept P st -> kept P st'.
Proof. unfold kept, starts_of. now intros ->. Qed.
Lemma kept_join P st st' b0 p : In b0 (g_blocks (s_0 st)) -> b_type b0 = BFunc ->
  g_blocks (s_0 st') = g_blocks (updb (b_start b0) (set_pair p) (s_0 st)) -> kept P st -> kept P st'.
Proof.
  intros I T E (N & K). split.
  - unfold starts_of. rewrite E. fold (starts_of (updb (b_start b0) (set_pair p) (s_0 st))).
    erewrite like_starts; [exact N|apply updb_like, keeps_pair].
  - intros b Ib Tb. rewrite E in Ib. apply updb_in in Ib as (c & Ic & ->). destruct (Nat.eqb (b_start c) (b_start b0)) eqn:S; auto.
    apply Nat.eqb_eq in S. apply (nodup_start (g_blocks (s_0 st))) in S; auto. subst c. destruct (Tb T).
Qed.
Lemma func_exact_kept P b0 st st' : In b0 (g_blocks (s_0 st)) -> func_exact b0 st = Ok st' -> kept P st -> kept P st'.
Proof.
  intros I. unfold func_exact. destruct (btype_beq (b_type b0) BFunc) eqn:T; cbn [negb orb]; [|intros [= <-]; auto]. apply btype_func in T.
  destruct (b_auto b0); [intros [= <-]; auto|]. destruct (find_by_name _ _) as [b1|]; [|intros [= <-]; auto].
  intros H. apply func_join_blocks in H as (H & _). eapply kept_join; eauto.
Qed.
Lemma func_human_kept P o c b0 st st' : In b0 (g_blocks (s_0 st)) -> func_human o c b0 st = Ok st' -> kept P st -> kept P st'.
Proof.
  intros I. unfold func_human. destruct (btype_beq (b_type b0) BFunc) eqn:T; cbn [negb orb]; [|intros [= <-]; auto]. apply btype_func in T.
  destruct (_ || _); [intros [= <-]; auto|]. intros H. bind H as x E. destruct x as [q u]. cbn [fst snd] in H.
  apply match_human_quiet in E as (Q & _). intros K. apply (kept_same P _ u (q_0 _ _ Q)) in K.
  destruct q as [b1|]; [|injection H as <-; auto]. apply func_join_blocks in H as (H & _). eapply (kept_join P u); eauto. pose proof (q_0 _ _ Q) as X. now rewrite X.
Qed.
Lemma func_config_kept P o b1 st st' : func_config o b1 st = Ok st' -> kept P st -> kept P st'.
Proof.
  unfold func_config. destruct (negb _); [intros [= <-]; auto|]. destruct (b_pair b1); [|intros [= <-]; auto].
  intros H. bind H as x E. assert (X : g_blocks (s_0 x) = g_blocks (s_0 st)).
  { destruct (in_syms_list (go_conf o) _ _ _); [|injection E as <-; auto]. destruct (getb _ _); [|discriminate]. injection E as <-. reflexivity. }
  destruct (in_syms_list None _ _ _); injection H as <-; apply kept_same; auto.
Qed.
Lemma func_changed_kept P o s x x' : func_changed o s x = Ok x' -> kept P (fst x) -> kept P (fst x').
Proof.
  destruct x as [st na]. unfold func_changed. cbn [fst]. destruct (getb _ _) as [b1|]; [|intros [= <-]; auto].
  destruct (_ || _); [intros [= <-]; auto|]. destruct (b_pair b1); [|intros [= <-]; auto]. destruct (getb _ _) as [b0|]; [|discriminate].
  intros H. bind H as d E. destruct (negb d).
  - bind H as y Ey. bind H as z Ez. injection H as <-. cbn [fst]. apply kept_same. apply ren0_blocks in Ey as (_ & Ey). apply ren1_blocks in Ez as (Ez & _).
    cbn [upd1 s_0 with_1]. rewrite Ez, Ey. reflexivity.
  - bind H as y Ey. injection H as <-. cbn [fst]. apply kept_same. apply make_new_labels_blocks in Ey as (-> & _). reflexivity.
Qed.
Lemma analyze_func_ok o st0 st st' : pass st0 st -> names (s_0 st0) -> func_names (s_0 st0) -> no_func st -> vars_ok o st -> no_flags st ->
  analyze_func o st = Ok st' -> vars_ok o st' /\ flags_ok o st'.
Proof.
  intros P Nm Fn N V F H. unfold analyze_func in H. bind H as x1 E1. bind H as x2 E2. bind H as x3 E3. bind H as x4 E4. bind H as x5 E5.
  bind H as y E6.
  assert (Pst : pass st st) by (split; [apply P|constructor|apply P]). destruct (pass_names _ _ P Nm Fn) as (Na & Fa).
  assert (P1 : pass st x1) by (eapply each0_exact; eauto).
  assert (P2 : pass st x2) by (eapply each0_pass; [|exact P1|exact E2]; intros; eapply func_human_pass; eauto).
  assert (P3 : pass st x3) by (eapply each0_pass; [|exact P2|exact E3]; intros; eapply func_human_pass; eauto).
  assert (P4 : pass st x4) by (eapply each1_pass; [|exact P3|exact E4]; intros; eapply func_new_pass; eauto).
  assert (F4 : no_flags x4).
  { eapply (each1_prop _ no_flags); [|exact E4|]; [intros b s s' _ G; apply func_new_flags in G as (_ & G); now apply no_flags_blocks|].
    eapply (each0_prop _ no_flags); [|exact E3|]; [intros b s s' _ G; eapply func_human_flags; eauto|].
    eapply (each0_prop _ no_flags); [|exact E2|]; [intros b s s' _ G; eapply func_human_flags; eauto|].
    eapply (each0_prop _ no_flags); [|exact E1|exact F]. intros b s s' _ G. eapply func_exact_flags; eauto. }
  assert (P5 : pass st x5 /\ flags_ok o x5).
  { eapply (each1_prop _ (fun s => pass st s /\ flags_ok o s)); [|exact E5|].
    - intros b s s' I G (Ps & Fs). split; [eapply func_config_pass; eauto|eapply func_config_flags; eauto]. apply Ps.
    - split; auto. intros b1 I. destruct (F4 b1 I) as (-> & ->). split; discriminate. }
  pose (K := fun b : cblock => exists c, In c (g_blocks (s_0 st)) /\ core b = core c /\ b_pair b = b_pair c).
  assert (K5 : kept K x5).
  { eapply (each1_prop _ (kept K)); [|exact E5|]; [intros; eapply func_config_kept; eauto|].
    eapply (each1_prop _ (kept K)); [|exact E4|]; [intros b s s' _ G; apply func_new_flags in G as (G & _); apply kept_same; now rewrite G|].
    eapply (each0_prop _ (kept K)); [|exact E3|]; [intros; eapply func_human_kept; eauto|].
    eapply (each0_prop _ (kept K)); [|exact E2|]; [intros; eapply func_human_kept; eauto|].
    eapply (each0_prop _ (kept K)); [|exact E1|]; [intros; eapply func_exact_kept; eauto|].
    split; [apply (i_wf _ (p_inv _ _ P))|]. intros b I _. now exists b. }
  destruct y as [st6 na].
  apply (rfold_inv _ (fun _ x => (pass st (fst x) /\ flags_ok o (fst x)) /\ kept K (fst x))) in E6;
    [|intros s r u v ((Pu & Fu) & Ku) G; split; [split; [eapply func_changed_pass; eauto|eapply func_changed_flags; eauto; apply Pu]|eapply func_changed_kept; eauto]|auto].
  cbn [fst snd] in *. destruct na; [discriminate|]. injection H as <-. destruct E6 as ((P6 & F6) & K6). split; auto.
  intros b0 I T. destruct K6 as (_ & K6). destruct (K6 b0 I) as (c & Ic & A & Ep); [congruence|].
  eapply var_ok_later; [apply (pass_later _ _ P6)|exact A|exact Ep|]. apply V; auto. destruct (alike_fields _ _ A) as (_ & _ & _ & _ & _ & Tc & _). congruence.
Qed.

(** ** The whole analysis *)
Section Final.
  Variables (a : parch) (f0 f1 : gfile) (st st' : gst).
  Hypotheses (R0 : ready a f0) (R1 : ready a f1) (A : analysed f0 f1 st st').
  Lemma uniq0 b c : In b (g_blocks (s_0 st)) -> In c (g_blocks (s_0 st)) -> b_start b = b_start c -> b = c.
  Proof. intros. apply (nodup_start (g_blocks (s_0 st))); auto. apply (i_wf _ (p_inv _ _ (an_pass _ _ _ _ A))). Qed.
  Lemma uniq1 b c : In b (g_blocks (s_1 st)) -> In c (g_blocks (s_1 st)) -> b_start b = b_start c -> b = c.
  Proof. intros. apply (nodup_start (g_blocks (s_1 st))); auto. apply (i_wf _ (p_inv _ _ (an_pass _ _ _ _ A))). Qed.
  Lemma final_stays1 b : In b (g_blocks (s_1 st)) -> exists c, In c (g_blocks (s_1 st')) /\ b_start c = b_start b /\ b_name c = b_name b /\ b_type c = b_type b.
  Proof. exact (rs_stays _ _ _ (an_1 _ _ _ _ A) b). Qed.
  (** The blocks of the first file that are joined are functions and variables. *)
  Lemma final_named b0 b1 : joined st b0 b1 -> named_alike b0 b1 /\ b_type b0 <> BOther.
  Proof.
    intros (I0 & I1 & P). destruct (i_fwd _ (p_inv _ _ (an_pass _ _ _ _ A)) b0 _ I0 P) as (c1 & (_ & J1 & J2) & Na & _).
    assert (c1 = b1) as -> by (apply uniq1; auto; congruence).
    split; auto. destruct Na as ([E|E] & _); congruence.
  Qed.
  Lemma final_joined b0 b1 : joined st b0 b1 -> exists c1, joined st' b0 c1 /\ b_start c1 = b_start b1 /\ b_name c1 = b_name b1 /\ b_type c1 = b_type b1
    /\ (b_type b0 = BFunc -> c1 = b1).
  Proof.
    intros J. pose proof J as (I0 & I1 & P). destruct (final_named _ _ J) as (Na & To).
    destruct (final_stays1 b1 I1) as (c1 & I & E1 & E2 & E3). exists c1. split; [|split; auto; split; auto; split; auto].
    - split; [now apply (an_in0 _ _ _ _ A)|]. split; auto. congruence.
    - intros Tf. assert (J' : joined st' b0 c1) by (split; [now apply (an_in0 _ _ _ _ A)|split; [auto|congruence]]).
      destruct (an_func a f0 f1 st st' R0 R1 A b0 c1 Tf J') as ((_ & I1' & _) & _).
      apply uniq1; auto; congruence.
  Qed.
  Lemma final_lines0 b : blines (s_0 st') b = blines (s_0 st) b.
  Proof. unfold blines. now rewrite (rs_lines _ _ _ (an_0 _ _ _ _ A)). Qed.
  Lemma final_lines1 b : blines (s_1 st') b = blines (s_1 st) b.
  Proof. unfold blines. now rewrite (rs_lines _ _ _ (an_1 _ _ _ _ A)). Qed.
  Lemma final_stands0 n d : stands_for0 st n d -> stands_for0 st' n d.
  Proof.
    intros (b0 & b1 & J & H). destruct (final_joined _ _ J) as (c1 & J' & _ & En & _ & Ef). exists b0, c1. split; auto.
    destruct H as [(-> & H)|(T & i & H0 & H1)]; [left; rewrite En; auto|right]. split; auto. exists i. rewrite (Ef T).
    unfold nth_label in *. now rewrite final_lines0, final_lines1.
  Qed.
  Lemma final_stands1 n d : stands_for1 st n d -> stands_for1 st' n d.
  Proof.
    intros [(b0 & b1 & J & -> & ->)|(-> & b1 & I & H)].
    - left. destruct (final_joined _ _ J) as (c1 & J' & _ & En & _). exists b0, c1. now rewrite En.
    - right. split; auto. destruct H as [->|(T & i & H)].
      + destruct (final_stays1 b1 I) as (c1 & I' & _ & En & _). exists c1. split; auto. left. now rewrite En.
      + exists b1. split; [apply (an_in1 _ _ _ _ A); [congruence|auto]|]. right. split; auto. exists i. unfold nth_label in *. now rewrite final_lines1.
  Qed.
  Lemma final_equal o b0 b1 c1 : b_name c1 = b_name b1 -> blines (s_1 st) c1 = blines (s_1 st) b1 -> equal_code o st b0 b1 -> equal_code o st' b0 c1.
  Proof.
    intros En El (m0 & m1 & H0 & H1 & S). exists m0, m1. split; [intros; now apply final_stands0, H0|]. split; [intros; now apply final_stands1, H1|].
    rewrite final_lines0, final_lines1, (rs_dir _ _ _ (an_0 _ _ _ _ A)), (rs_dir _ _ _ (an_1 _ _ _ _ A)), En, El. exact S.
  Qed.
  Lemma final_left_out o b0 b1 : left_out o st b0 b1 -> left_out o st' b0 b1.
  Proof. unfold left_out. now rewrite (rs_base _ _ _ (an_1 _ _ _ _ A)). Qed.
  (** Every function of the new file *)
  Lemma final_func o b1 : vars_ok o st -> flags_ok o st -> In b1 (g_blocks (s_1 st')) -> b_type b1 = BFunc ->
    b_pair b1 = None \/ exists b0, joined st' b0 b1 /\ named_alike b0 b1 /\ b_pair b1 = Some (b_start b0)
      /\ (left_out o st' b0 b1 \/ equal_code o st' b0 b1 \/ (b_type b0 = BFunc /\ b_ignore b1 = false)).
  Proof.
    intros V F I T. apply (an_in1 _ _ _ _ A) in I; [|congruence]. destruct (b_pair b1) as [s0|] eqn:Ep; [right|now left].
    destruct (i_back _ (p_inv _ _ (an_pass _ _ _ _ A)) b1 s0 I Ep) as (b0 & J & <-). exists b0. destruct (final_named _ _ J) as (Na & To).
    pose proof J as (I0 & _ & Ep0).
    split; [split; [now apply (an_in0 _ _ _ _ A)|split; [apply (an_in1 _ _ _ _ A); [congruence|auto]|auto]]|]. split; auto. split; auto.
    assert (X : left_out o st b0 b1 \/ equal_code o st b0 b1 \/ (b_type b0 = BFunc /\ b_ignore b1 = false)).
    { destruct Na as ([T0|T0] & _).
      - destruct (b_ignore b1) eqn:Ig; [|auto]. destruct (F b1 I) as (F1 & _). destruct (F1 Ig) as (c0 & (K0 & K1 & K2) & Kp & H).
        assert (c0 = b0) as -> by (apply uniq0; auto; congruence). tauto.
      - specialize (V b0 I0 T0). unfold var_ok in V. rewrite Ep0 in V. destruct (V b1 I eq_refl); auto. }
    destruct X as [X|[X|X]]; [left; now apply final_left_out|right; left|auto]. eapply final_equal; eauto.
  Qed.
  Lemma final_unlink o b1 : flags_ok o st -> In b1 (g_blocks (s_1 st')) -> b_type b1 = BFunc -> b_unlink b1 = true ->
    in_syms_list None (g_base (s_1 st')) (txt (b_hname b1)) (go_unlink o) = true /\ b_pair b1 <> None.
  Proof.
    intros F I T U. apply (an_in1 _ _ _ _ A) in I; [|congruence]. destruct (F b1 I) as (_ & F2). destruct (F2 U) as ((_ & Q) & P).
    rewrite (rs_base _ _ _ (an_1 _ _ _ _ A)). auto.
  Qed.
  (** Every variable of the program *)
  Lemma final_var o b0 : vars_ok o st -> In b0 (g_blocks (s_0 st')) -> b_type b0 = BVar ->
    (b_pair b0 = None /\ temporary (txt (b_name b0))) \/ exists b1, joined st' b0 b1
      /\ (b_type b1 = BOther \/ (named_alike b0 b1 /\ (left_out o st' b0 b1 \/ equal_code o st' b0 b1))).
  Proof.
    intros V I T. apply (an_in0 _ _ _ _ A) in I; [|congruence]. specialize (V b0 I T). unfold var_ok in V.
    destruct (b_pair b0) as [s1|] eqn:Ep; [right|left; auto].
    destruct (i_fwd _ (p_inv _ _ (an_pass _ _ _ _ A)) b0 s1 I Ep) as (b1 & J & Na & _).
    destruct (final_joined _ _ J) as (c1 & J' & E1 & E2 & E3 & _). exists c1. split; auto.
    destruct (btype_beq (b_type c1) BOther) eqn:Tc; [left; destruct (b_type c1); try discriminate; reflexivity|right].
    pose proof J' as (_ & I1' & _). pose proof J as (_ & I1 & Q).
    assert (c1 = b1) as ->.
    { apply uniq1; [|exact I1|exact E1].
      apply (an_in1 _ _ _ _ A) in I1'; auto. intros X. rewrite X in Tc. discriminate. }
    split; auto. rewrite Ep in Q. injection Q as ->.
    destruct (V b1 I1 eq_refl); [left; now apply final_left_out|right; eapply final_equal; eauto].
  Qed.
End Final.
Theorem analyze_ok a o f0 f1 st' : ready a f0 -> ready a f1 -> analyze o (start f0 f1) = Ok st' ->
  exists st, analysed f0 f1 st st' /\ vars_ok o st /\ flags_ok o st.
Proof.
  intros R0 R1 H. unfold analyze in H. bind H as st1 E1. bind H as st2 E2. destruct (start_inv _ _ _ R0 R1) as (I & N).
  assert (F : no_flags (start f0 f1)).
  { intros b Ib. pose proof (rd_fresh _ _ R1) as Fr. rewrite Forall_forall in Fr. destruct (Fr b Ib) as (_ & _ & F1 & F2 & _). auto. }
  destruct (analyze_var_ok _ _ _ I N F E1) as (V1 & F1).
  destruct (analyze_var_pass _ _ _ I N E1) as (P1 & N1).
  pose proof (analyze_func_pass _ _ _ _ P1 (rd_names _ _ R0) (ready_func_names _ _ R0) N1 E2) as P2.
  destruct (analyze_func_ok _ _ _ _ P1 (rd_names _ _ R0) (ready_func_names _ _ R0) N1 V1 F1 E2) as (V2 & F2).
  pose proof (pass_later _ _ P2) as [L0 L1 (Lo & Ln & _) _].
  assert (O0 : in_order (length (g_lines f0)) (g_blocks (s_0 st2))) by (eapply in_order_like; [exact L0|apply R0]).
  assert (O1 : in_order (length (g_lines f1)) (g_blocks (s_1 st2))) by (eapply in_order_like; [exact L1|apply R1]).
  destruct (analyze_other_spec _ _ _ _ _ O0 O1 H) as (A & B & (C1 & C2 & _) & D). exists st2. split; [|auto]. split; auto.
  rewrite C1, C2, Lo, Ln. now split.
Qed.

(** ** What of this is in the output *)
Lemma parts_in P : forall bs n n' p b, parts P bs n n' p -> In b bs -> exists m m' q u v, P b m m' q /\ p = u ++ q ++ v.
Proof.
  intros bs n n' p b H. induction H as [|c bs n n1 n2 p q Hc H IH]; intros I; [destruct I|]. destruct I as [->|I].
  - exists n, n1, p, [], q. now split.
  - destruct (IH I) as (m & m' & w & u & v & X & ->). exists m, m', w, (p ++ u), v. split; auto. now rewrite <- !app_assoc.
Qed.
(** The code of a function of the new file is in the output, and its entry in the table
    of functions. *)
Definition emitted (o : gopts) (st : gst) (out : list Z) (b1 : cblock) (orig : option (list Z)) : Prop :=
  exists m n c u v, function_of o (s_1 st) m b1 orig n c /\ (m = rename_find (g_ren (s_1 st)) \/ unlinked_names st m) /\ out = u ++ c ++ v.
Definition within (p q : list Z) : Prop := exists u v, q = u ++ p ++ v.
Lemma within_refl p : within p p.
Proof. exists [], []. now rewrite app_nil_r. Qed.
Lemma within_l p q r : within p q -> within p (q ++ r).
Proof. intros (u & v & ->). exists u, (v ++ r). now rewrite <- !app_assoc. Qed.
Lemma within_r p q r : within p r -> within p (q ++ r).
Proof. intros (u & v & ->). exists (q ++ u), v. now rewrite <- !app_assoc. Qed.
Lemma within_trans p q r : within p q -> within q r -> within p r.
Proof. intros H (u & v & ->). apply within_r, within_l, H. Qed.
Lemma parts_within P bs n n' p b : parts P bs n n' p -> In b bs -> exists m m' q, P b m m' q /\ within q p.
Proof. intros H I. destruct (parts_in _ _ _ _ _ _ H I) as (m & m' & q & u & v & X & Y). exists m, m', q. split; auto. now exists u, v. Qed.
Lemma emit_new o st out b1 : output_of o st out -> In b1 (g_blocks (s_1 st)) -> b_type b1 = BFunc -> b_pair b1 = None -> emitted o st out b1 None.
Proof.
  intros (h & p & q & u & a0 & a1 & x & n1 & n2 & n3 & m & -> & _ & _ & H & _) I T Ep.
  destruct (parts_within _ _ _ _ _ _ H I) as (k & k' & w & X & Y). unfold new_part in X. rewrite Ep, T in X.
  destruct X as (c & F & _ & ->).
  assert (W : within c (h ++ p ++ q ++ u ++ a0 ++ a1 ++ x)).
  { apply within_r, within_r, within_l. eapply within_trans; [|exact Y]. apply within_r, within_refl. }
  destruct W as (y & z & ->). exists (rename_find (g_ren (s_1 st))), k, c, y, z. auto.
Qed.
Lemma emit_unlinked o st out b1 : output_of o st out -> In b1 (g_blocks (s_1 st)) -> b_type b1 = BFunc -> b_unlink b1 = true -> emitted o st out b1 None.
Proof.
  intros (h & p & q & u & a0 & a1 & x & n1 & n2 & n3 & m & -> & _ & _ & _ & M & H & _) I T Ep.
  destruct (parts_within _ _ _ _ _ _ H I) as (k & k' & w & X & Y). unfold unlinked_part in X. rewrite Ep, T in X.
  destruct X as (c & F & _ & ->).
  assert (W : within c (h ++ p ++ q ++ u ++ a0 ++ a1 ++ x)).
  { apply within_r, within_r, within_r, within_l. eapply within_trans; [|exact Y]. apply within_r, within_refl. }
  destruct W as (y & z & ->). exists m, k, c, y, z. auto.
Qed.
Lemma emit_joined o st out b0 b1 : output_of o st out -> wf st -> joined st b0 b1 -> b_type b0 = BFunc -> b_ignore b1 = false -> b_unlink b1 = false ->
  emitted o st out b1 (Some (txt (b_name b0))).
Proof.
  intros (h & p & q & u & a0 & a1 & x & n1 & n2 & n3 & m & -> & _ & H & _) W J T Ig Un. pose proof J as (I0 & I1 & P).
  destruct (parts_within _ _ _ _ _ _ H I0) as (k & k' & w & X & Y). unfold original_part in X. rewrite T in X.
  destruct X as (g & t & r & -> & _ & _ & [(c1 & c & _ & J' & _ & _ & F & _ & ->)|(N & _)]); [|destruct N; split; auto; exists b1; auto].
  assert (c1 = b1) as ->.
  { destruct J' as (_ & J1 & J2). apply (nodup_start (g_blocks (s_1 st))); auto; [apply W|congruence]. }
  assert (X : within c (h ++ p ++ q ++ u ++ a0 ++ a1 ++ x)).
  { apply within_r, within_l. eapply within_trans; [|exact Y]. do 6 apply within_r. apply within_l, within_refl. }
  destruct X as (y & z & ->). exists (rename_find (g_ren (s_1 st))), k, c, y, z. auto.
Qed.
Theorem changed_emitted a o buf i0 i1 out : gensrc a o buf i0 i1 = Ok out ->
  exists f0 f1 st, run_of a o buf i0 i1 f0 f1 st /\ output_of o st out
    /\ (forall b1, In b1 (g_blocks (s_1 st)) -> b_type b1 = BFunc ->
          (b_pair b1 = None /\ emitted o st out b1 None)
          \/ exists b0, joined st b0 b1 /\ named_alike b0 b1 /\ b_pair b1 = Some (b_start b0)
               /\ ((in_syms_list None (g_base (s_1 st)) (txt (b_hname b1)) (go_unlink o) = true /\ emitted o st out b1 None)
                   \/ (b_type b0 = BFunc /\ emitted o st out b1 (Some (txt (b_name b0))))
                   \/ left_out o st b0 b1 \/ equal_code o st b0 b1))
    /\ (forall b0, In b0 (g_blocks (s_0 st)) -> b_type b0 = BVar ->
          (b_pair b0 = None /\ temporary (txt (b_name b0)))
          \/ exists b1, joined st b0 b1
               /\ (b_type b1 = BOther \/ (named_alike b0 b1 /\ (left_out o st b0 b1 \/ equal_code o st b0 b1)))).
Proof.
  intros H. destruct (gensrc_spec _ _ _ _ _ _ H) as (f0 & f1 & st' & Ru & R0 & R1 & _ & _ & Out).
  destruct (analyze_ok _ _ _ _ _ R0 R1 (ru_an _ _ _ _ _ _ _ _ Ru)) as (st & A & V & F). exists f0, f1, st'. split; auto. split; auto. split.
  - intros b1 I T. destruct (final_func a f0 f1 st st' R0 R1 A o b1 V F I T) as [Ep|(b0 & J & Na & Ep & X)].
    + left. split; auto. apply emit_new; auto.
    + right. exists b0. split; auto. split; auto. split; auto. destruct (b_unlink b1) eqn:U.
      * left. destruct (final_unlink f0 f1 st st' A o b1 F I T U) as (Q & _). split; auto. apply emit_unlinked; auto.
      * right. destruct X as [X|[X|(T0 & Ig)]]; auto. left. split; auto. apply emit_joined; auto. eapply an_wf; eauto.
  - intros b0 I T. destruct (final_var a f0 f1 st st' R0 R1 A o b0 V I T) as [X|X]; auto.
Qed.
