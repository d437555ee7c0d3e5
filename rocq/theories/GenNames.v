(** Which names the code of the new file has in the output. *)
From Coq Require Import String.
From Verif Require Import Base BaseProofs StorageModel CliModel TextModel TextSpec TextProofs ParseModel ParseProofs RenameModel RenameSpec
  RenameProofs CmpModel CmpSpec CmpProofs ParseSpec GenModel DbgModel GenSpec GenFrame GenSteps GenOther GenLoad GenOut GenWhole GenChange.
Open Scope list_scope.

Definition r1 (st : gst) (n : text) : option text := rename_find (g_ren (s_1 st)) n.

(** ** Additions and deletions *)
Lemma ren1_find st s d st' : ren1 st s d = Ok st' -> forall n, r1 st' n = r1 st n \/ (n = s /\ r1 st n = None /\ r1 st' n = Some d /\ s <> d).
Proof.
  unfold ren1, r1. intros H n. bind H as r E. injection H as <-. cbn [with_1 s_1 with_ren g_ren]. unfold rename_add in E.
  destruct (same s d) eqn:Sd; [injection E as <-; auto|]. destruct (rename_find (g_ren (s_1 st)) s) as [d'|] eqn:F.
  - destruct (same d' d); [injection E as <-; auto|discriminate].
  - injection E as <-. rewrite find_cons. destruct (same s n) eqn:S; [|auto]. apply same_spec in S. subst n. right. repeat split; auto.
    intros ->. now rewrite same_refl in Sd.
Qed.
Lemma ren1_self st s d st' : ren1 st s d = Ok st' -> tells (r1 st' s) s d \/ (s = d /\ r1 st' s = r1 st s).
Proof.
  unfold ren1, r1. intros H. bind H as r E. injection H as <-. cbn [with_1 s_1 with_ren g_ren]. unfold rename_add in E.
  destruct (same s d) eqn:Sd; [injection E as <-; apply same_spec in Sd; auto|]. left. left. destruct (rename_find (g_ren (s_1 st)) s) as [d'|] eqn:F.
  - destruct (same d' d) eqn:S; [injection E as <-; apply same_spec in S; subst; auto|discriminate].
  - injection E as <-. rewrite find_cons. now rewrite same_refl.
Qed.
Lemma ren0_r1 st s d st' : ren0 st s d = Ok st' -> s_1 st' = s_1 st.
Proof. unfold ren0. intros H. bind H as r E. now injection H as <-. Qed.
Lemma del1_find st s n : r1 (del1 s st) n = if same s n then None else r1 st n.
Proof. unfold r1, del1. cbn [with_1 s_1 with_ren g_ren]. apply find_del. Qed.

(** ** Variables *)
(** What holds while variables are joined *)
Record var_names (st : gst) : Prop := {
  vn_free : forall b, In b (g_blocks (s_1 st)) -> name b <> [] -> b_type b = BVar -> b_pair b = None -> r1 st (name b) = None;
  vn_pair : forall b s, In b (g_blocks (s_1 st)) -> name b <> [] -> b_type b = BVar -> b_pair b = Some s ->
     exists b0, In b0 (g_blocks (s_0 st)) /\ b_type b0 = BVar /\ b_pair b0 = Some (b_start b) /\ tells (r1 st (name b)) (name b) (name b0);
  vn_func : forall b, In b (g_blocks (s_1 st)) -> b_type b = BFunc -> name b <> [] -> r1 st (name b) = None }.
Lemma var_names_same st st' : g_blocks (s_0 st') = g_blocks (s_0 st) -> g_blocks (s_1 st') = g_blocks (s_1 st) -> (forall n, n <> [] -> r1 st' n = r1 st n) ->
  var_names st -> var_names st'.
Proof.
  intros E0 E1 R [A B C]. split; rewrite E1.
  - intros b I N T P. rewrite R; auto.
  - intros b s I N T P. rewrite R, E0; eauto.
  - intros b I T N. rewrite R; auto.
Qed.
Lemma var_cmp_names o st b0 b1 d st' : inv st -> In b0 (g_blocks (s_0 st)) -> b_pair b0 = None -> In b1 (g_blocks (s_1 st)) -> b_type b1 = BVar ->
  var_names st -> var_cmp o st b0 b1 = Ok (d, st') -> (forall n, n <> [] -> r1 st' n = r1 st n) /\ (d = false -> b_pair b1 = None).
Proof.
  intros V I0 P0 I1 T1 N H. unfold var_cmp in H.
  assert (Pn : forall p, b_pair b1 = Some p -> Nat.eqb p (b_start b0) = false).
  { intros p Ep. apply Nat.eqb_neq. intros ->. destruct (i_back _ V b1 _ I1 Ep) as (c0 & (J0 & _ & J2) & S).
    assert (c0 = b0) as -> by (apply (nodup_start (g_blocks (s_0 st))); auto; apply (i_wf _ V)). congruence. }
  destruct (b_pair b1) as [p|] eqn:Ep.
  { rewrite (Pn p eq_refl) in H. cbn [negb] in H. injection H as <- <-. split; auto. discriminate. }
  split; [|auto].
  destruct (match rename_find (g_ren (s_1 st)) (name b1) with Some d => negb (same (name b0) d) | None => false end); [injection H as <- <-; auto|].
  destruct (negb (same (hname b0) (hname b1))); [injection H as <- <-; auto|].
  bind H as u E0. bind H as v E1. bind H as w E2. injection H as <- <-. intros n Nn.
  rewrite del1_find. pose proof (ren0_r1 _ _ _ _ E0) as Eu.
  assert (Rv : forall m, r1 (del0 (name b0) v) m = r1 v m) by reflexivity. rewrite Rv.
  assert (Ru : forall m, r1 u m = r1 st m) by (intros; unfold r1; now rewrite Eu).
  destruct (same (name b1) n) eqn:S.
  - apply same_spec in S. subst n. symmetry. now apply (vn_free _ N).
  - destruct (ren1_find _ _ _ _ E1 n) as [E|(-> & _)]; [congruence|]. now rewrite same_refl in S.
Qed.
Lemma var_search_names o b0 : forall ss st q st', inv st -> In b0 (g_blocks (s_0 st)) -> b_pair b0 = None -> var_names st ->
  var_search o st b0 ss = Ok (q, st') -> (forall n, n <> [] -> r1 st' n = r1 st n)
  /\ (forall s, q = Some s -> exists c1, In c1 (g_blocks (s_1 st)) /\ b_start c1 = s /\ b_type c1 = BVar /\ b_pair c1 = None).
Proof.
  induction ss as [|s ss IH]; intros st q st' V I P N H; cbn [var_search] in H; [injection H as <- <-; split; [auto|discriminate]|].
  destruct (getb (s_1 st) s) as [b1|] eqn:G; [|eauto]. destruct (btype_beq (b_type b1) BVar) eqn:T; [|eauto].
  bind H as x E. destruct x as [d u]. cbn [fst snd] in H. apply getb_in in G as (I1 & S).
  assert (T1 : b_type b1 = BVar) by (destruct (b_type b1); try discriminate; reflexivity).
  destruct (var_cmp_names _ _ _ _ _ _ V I P I1 T1 N E) as (R & D). apply var_cmp_quiet in E as (Q & _).
  destruct d.
  - apply IH in H as (R' & D'); [| |rewrite (q_0 _ _ Q); auto|auto|].
    + split; [intros n Nn; now rewrite R', R|]. rewrite <- (q_1 _ _ Q). exact D'.
    + eapply steps_inv; [exact V|apply Q].
    + eapply var_names_same; [apply Q|apply Q|exact R|exact N].
  - injection H as <- <-. split; auto. intros s' [= <-]. exists b1. auto.
Qed.
(** The hint is a variable. *)
Definition hint_ok (st : gst) (h : option nat) : Prop := forall s b, h = Some s -> getb (s_1 st) s = Some b -> b_type b = BVar.
Lemma var_try_names o st b0 h q st' : inv st -> In b0 (g_blocks (s_0 st)) -> b_pair b0 = None -> var_names st -> hint_ok st h ->
  var_try o st b0 h = Ok (q, st') -> (forall n, n <> [] -> r1 st' n = r1 st n)
  /\ (forall s, q = Some s -> exists c1, In c1 (g_blocks (s_1 st)) /\ b_start c1 = s
        /\ ((b_auto b0 = false /\ name b0 = name c1) \/ (b_auto b0 = true /\ b_type c1 = BVar /\ b_pair c1 = None))).
Proof.
  intros V I P N K H. unfold var_try in H. destruct (b_auto b0) eqn:Au; cbn [negb] in H.
  - bind H as x E. destruct x as [d u]. cbn [fst snd] in H.
    assert (X : (quiet st u /\ forall n, n <> [] -> r1 u n = r1 st n) /\ (d = false -> forall s, h = Some s -> exists c1, In c1 (g_blocks (s_1 st)) /\ b_start c1 = s
              /\ b_type c1 = BVar /\ b_pair c1 = None)).
    { destruct h as [s|]; [|injection E as <- <-; split; [split; [apply quiet_refl|auto]|discriminate]].
      destruct (getb (s_1 st) s) as [c|] eqn:G; [|injection E as <- <-; split; [split; [apply quiet_refl|auto]|discriminate]].
      pose proof (K s c eq_refl G) as T. apply getb_in in G as (I1 & S). destruct (var_cmp_names _ _ _ _ _ _ V I P I1 T N E) as (R & D).
      apply var_cmp_quiet in E as (Q & _). split; [split; auto|]. intros Ed s' [= <-]. exists c. auto. }
    destruct X as ((Q & R) & D). destruct d.
    + apply var_search_names in H as (R' & D'); [| |rewrite (q_0 _ _ Q); auto|auto|].
      * split; [intros n Nn; now rewrite R', R|]. intros s Es. rewrite <- (q_1 _ _ Q). destruct (D' s Es) as (c1 & ? & ? & ?). exists c1. auto.
      * eapply steps_inv; [exact V|apply Q].
      * eapply var_names_same; [apply Q|apply Q|exact R|exact N].
    + injection H as <- <-. split; auto. intros s Es. destruct (D eq_refl s Es) as (c1 & ? & ? & ?). exists c1. auto.
  - injection H as <- <-. split; auto. intros s Es.
    unfold find_by_name in Es. destruct (find _ (g_blocks (s_1 st))) as [c|] eqn:F; [|discriminate]. injection Es as <-.
    apply find_some in F as (Ic & S). exists c. split; auto. split; auto. left. split; auto. symmetry. now apply same_spec.
Qed.
Lemma hint_from st s : wf st -> hint_ok st (block_from (s_1 st) s BVar).
Proof.
  intros W s' b E G. unfold block_from in E. destruct (find _ _) as [c|] eqn:F; [|discriminate]. injection E as <-.
  apply find_some in F as (Ic & C). apply andb_true_iff in C as (_ & C). apply getb_in in G as (Ib & S).
  assert (b = c) as -> by (apply (nodup_start (g_blocks (s_1 st))); auto; apply W). destruct (b_type c); try discriminate; reflexivity.
Qed.
Lemma var_round_step_names o z st0 s x x' : pass st0 (fst (fst x)) -> no_func (fst (fst x)) -> var_names (fst (fst x)) -> names (s_1 (fst (fst x))) ->
  hint_ok (fst (fst x)) (snd (fst x)) -> var_round_step o z s x = Ok x' -> var_names (fst (fst x')) /\ hint_ok (fst (fst x')) (snd (fst x')).
Proof.
  destruct x as [[st h] pr]. cbn [fst snd]. intros P N V Nm K H.
  assert (P' : pass st0 (fst (fst x')) /\ no_func (fst (fst x'))) by (exact (var_round_step_pass o z st0 s (st, h, pr) x' P N H)).
  unfold var_round_step in H.
  destruct (getb (s_0 st) s) as [b0|] eqn:G; [|injection H as <-; auto].
  destruct (btype_beq (b_type b0) BVar) eqn:T; cbn [negb] in H; [|injection H as <-; auto].
  destruct (b_pair b0) as [p|] eqn:Np; [injection H as <-; auto|].
  destruct (z && starts (name b0) desc_str); [injection H as <-; auto|].
  bind H as y E. destruct y as [q st1]. cbn [fst snd] in H. apply getb_in in G as (I0 & <-).
  destruct (var_try_names _ _ _ _ _ _ (p_inv _ _ P) I0 Np V K E) as (R & D). apply var_try_quiet in E as (Q & _).
  assert (V1 : var_names st1) by (eapply var_names_same; [apply Q|apply Q|exact R|exact V]).
  pose proof (pass_quiet _ _ _ P Q) as P1.
  destruct q as [s1|]; [|injection H as <-; cbn [fst snd]; split; [auto|discriminate]].
  destruct (getb (s_1 st1) s1) as [c1|] eqn:G1; [|discriminate].
  bind H as u1 E1. bind H as u2 E2. injection H as <-. cbn [fst snd] in *.
  split; [|apply hint_from, (i_wf _ (p_inv _ _ (proj1 P')))].
  apply getb_in in G1 as (I1 & S1). destruct (D _ eq_refl) as (d1 & J & Sd & Hn). rewrite <- (q_1 _ _ Q) in J.
  assert (d1 = c1) as -> by (apply (nodup_start (g_blocks (s_1 st1))); [apply (i_wf _ (p_inv _ _ P1))|auto|auto|congruence]).
  assert (T' : b_type b0 = BVar) by (destruct (b_type b0); try discriminate; reflexivity).
  rewrite <- (q_0 _ _ Q) in I0. subst s1.
  set (S3 := join (b_start b0) (b_start c1) u2) in *.
  assert (F0 : forall b, In b (g_blocks (s_0 st1)) -> b_pair b <> None -> In b (g_blocks (s_0 S3))).
  { intros b Ib Nb. unfold S3. cbn [join upd0 upd1 s_0 with_0 with_1]. apply ren0_blocks in E1 as (_ & E1). apply ren1_blocks in E2 as (E2 & _).
    apply updb_in. exists b. split; [rewrite E2, E1; exact Ib|]. destruct (Nat.eqb (b_start b) (b_start b0)) eqn:S; auto. apply Nat.eqb_eq in S.
    assert (b = b0) as -> by (apply (nodup_start (g_blocks (s_0 st1))); auto; apply (i_wf _ (p_inv _ _ P1))). congruence. }
  assert (B0 : In (set_pair (b_start c1) b0) (g_blocks (s_0 S3))).
  { unfold S3. cbn [join upd0 upd1 s_0 with_0 with_1]. apply ren0_blocks in E1 as (_ & E1). apply ren1_blocks in E2 as (E2 & _).
    apply updb_in. exists b0. rewrite Nat.eqb_refl. split; auto. rewrite E2, E1. exact I0. }
  pose proof (ren0_r1 _ _ _ _ E1) as Eu1.
  assert (Ru1 : forall m, r1 u1 m = r1 st1 m) by (intros; unfold r1; now rewrite Eu1).
  assert (R3 : forall m, r1 S3 m = r1 u2 m) by reflexivity.
  assert (B1 : forall b, In b (g_blocks (s_1 S3)) -> (b = set_pair (b_start b0) c1 \/ (In b (g_blocks (s_1 st1)) /\ b <> c1))).
  { intros b Ib. unfold S3 in Ib. cbn [join upd0 upd1 s_1 with_0 with_1] in Ib. apply updb_in in Ib as (c & Ic & ->).
    assert (Ic' : In c (g_blocks (s_1 st1))) by (apply ren1_blocks in E2 as (_ & E2); rewrite E2, Eu1 in Ic; exact Ic).
    destruct (Nat.eqb (b_start c) (b_start c1)) eqn:S.
    - apply Nat.eqb_eq in S. assert (c = c1) as -> by (apply (nodup_start (g_blocks (s_1 st1))); auto; apply (i_wf _ (p_inv _ _ P1))). auto.
    - right. split; auto. intros ->. now rewrite Nat.eqb_refl in S. }
  assert (Nm1 : names (s_1 st1)) by (unfold names; rewrite (q_1 _ _ Q); exact Nm).
  assert (Ro : forall b, In b (g_blocks (s_1 st1)) -> b <> c1 -> name b <> [] -> r1 S3 (name b) = r1 st1 (name b)).
  { intros b Ib Nb Ne. rewrite R3. destruct (ren1_find _ _ _ _ E2 (name b)) as [E|(E & _)]; [now rewrite E, Ru1|]. destruct Nb. apply Nm1; auto. }
  assert (Rs : name c1 <> [] -> b_type c1 = BFunc \/ b_pair c1 <> None -> r1 S3 (name c1) = r1 st1 (name c1)).
  { intros Ne O. rewrite R3, <- Ru1. destruct Hn as [(_ & En)|(_ & Tc & Pc)]; [|destruct O; congruence].
    destruct (ren1_find _ _ _ _ E2 (name c1)) as [E|(_ & _ & _ & X)]; [exact E|]. congruence. }
  split.
  - intros b Ib Ne Tb Pb. destruct (B1 b Ib) as [->|(Jb & Nb)]; [discriminate|]. rewrite Ro; auto. apply (vn_free _ V1); auto.
  - intros b sb Ib Ne Tb Pb. destruct (B1 b Ib) as [->|(Jb & Nb)].
    + cbn [set_pair b_start b_name b_type] in *. change (name (set_pair (b_start b0) c1)) with (name c1) in *.
      destruct (b_pair c1) as [pc|] eqn:Pc.
      * destruct (vn_pair _ V1 c1 pc I1 Ne Tb Pc) as (e0 & Ie & Te & Pe & X). exists e0. split; [apply F0; congruence|]. split; auto. split; auto.
        rewrite Rs; auto. right. congruence.
      * exists (set_pair (b_start c1) b0). split; auto. split; [exact T'|]. split; auto. change (name (set_pair (b_start c1) b0)) with (name b0). rewrite R3.
        destruct (ren1_self _ _ _ _ E2) as [X|(X & Y)]; auto. right. split; auto. rewrite Y, Ru1. now apply (vn_free _ V1).
    + destruct (vn_pair _ V1 b sb Jb Ne Tb Pb) as (e0 & Ie & Te & Pe & X). exists e0. split; [apply F0; congruence|]. split; auto. split; auto. rewrite Ro; auto.
  - intros b Ib Tb Ne. destruct (B1 b Ib) as [->|(Jb & Nb)].
    + change (name (set_pair (b_start b0) c1)) with (name c1) in *. rewrite Rs; auto. apply (vn_func _ V1); auto.
    + rewrite Ro; auto. apply (vn_func _ V1); auto.
Qed.
Lemma pass_names1 st0 st : pass st0 st -> names (s_1 st0) -> names (s_1 st).
Proof. intros P N. pose proof (pass_later _ _ P) as [_ L _ _]. eapply names_like; [|exact L|exact N]. apply (i_wf _ (p_begin _ _ P)). Qed.
Lemma var_rounds_names o st0 : names (s_1 st0) -> forall n p st st', pass st0 st -> no_func st -> var_names st -> var_rounds o n p st = Ok st' -> var_names st'.
Proof.
  intros Nm. induction n as [|n IH]; intros p st st' P N V H; cbn [var_rounds] in H; [discriminate|].
  bind H as x E. destruct x as [st1 pr]. cbn [fst snd] in H. unfold var_round in E. bind E as y E0. injection E as <- <-.
  apply (rfold_inv _ (fun _ x => (pass st0 (fst (fst x)) /\ no_func (fst (fst x))) /\ var_names (fst (fst x)) /\ hint_ok (fst (fst x)) (snd (fst x)))) in E0.
  - destruct E0 as ((P1 & N1) & V1 & _). destruct (Nat.ltb _ 2); [eapply IH; eauto|]. injection H as <-. auto.
  - intros s r u v ((A & B) & C & D) G. split; [eapply var_round_step_pass; eauto|eapply var_round_step_names; eauto]. eapply pass_names1; eauto.
  - cbn [fst snd]. split; auto. split; auto. apply hint_from, (i_wf _ (p_inv _ _ P)).
Qed.

(** ** Functions *)
(** A label of a function is the name of no other block. *)
Lemma labels_apart_like f g : like f g -> labels_apart f -> labels_apart g.
Proof.
  intros L A b c i n Ib T H Ic E. destruct (like_in _ _ _ L Ib) as (b' & Jb & Ab), (like_in _ _ _ L Ic) as (c' & Jc & Ac).
  destruct (alike_fields _ _ Ab) as (Eb & _ & _ & _ & _ & Tb & _), (alike_fields _ _ Ac) as (Ec & _ & Enc & _). rewrite Eb, Ec.
  apply (A b' c' i n); auto; [congruence|now apply (nth_label_alike _ _ _ _ i n L Ab)|]. unfold name in *. congruence.
Qed.
(** The block it is joined with is a function. *)
Definition fpair (st : gst) (b : cblock) : Prop := exists c, In c (g_blocks (s_0 st)) /\ b_type c = BFunc /\ b_pair b = Some (b_start c).
Definition labels_done (st : gst) (b : cblock) : Prop := forall i n, nth_label (s_1 st) b i n -> n <> name b -> r1 st n = Some (suffixed n).
Definition has_suffix (st : gst) (b : cblock) : Prop := r1 st (name b) = Some (suffixed (name b)).
(** What is known of the variables *)
Record vars_named (st : gst) : Prop := {
  vd_new : forall b, In b (g_blocks (s_1 st)) -> name b <> [] -> b_type b = BVar -> b_pair b = None -> has_suffix st b;
  vd_old : forall b s, In b (g_blocks (s_1 st)) -> name b <> [] -> b_type b = BVar -> b_pair b = Some s -> ~ fpair st b ->
     exists b0, In b0 (g_blocks (s_0 st)) /\ b_type b0 = BVar /\ b_pair b0 = Some (b_start b) /\ tells (r1 st (name b)) (name b) (name b0) }.
(** The same, and what is known of the functions while they are joined *)
Record func_names1 (st : gst) : Prop := {
  fd_vars : vars_named st;
  fd_new : forall b, In b (g_blocks (s_1 st)) -> b_type b = BFunc -> b_pair b = None -> r1 st (name b) = None;
  fd_old : forall b, In b (g_blocks (s_1 st)) -> b_type b = BFunc -> fpair st b -> has_suffix st b }.

Section Names.
  Variables (f0 f1 : gfile).
  Hypotheses (W0 : NoDup (starts_of f0)) (W1 : NoDup (starts_of f1)) (Nm : names f1) (Fn : func_names f1) (La : labels_apart f1).
  Definition from (st : gst) : Prop := like f0 (s_0 st) /\ like f1 (s_1 st).
  Lemma from_nodup0 st : from st -> NoDup (starts_of (s_0 st)).
  Proof. intros (L & _). now rewrite (like_starts _ _ L). Qed.
  Lemma from_nodup1 st : from st -> NoDup (starts_of (s_1 st)).
  Proof. intros (_ & L). now rewrite (like_starts _ _ L). Qed.
  Lemma from_names st : from st -> names (s_1 st).
  Proof. intros (_ & L). eapply names_like; eauto. Qed.
  Lemma from_func st : from st -> func_names (s_1 st).
  Proof. intros (_ & L). eapply func_names_like; eauto. Qed.
  Lemma from_labels st : from st -> labels_apart (s_1 st).
  Proof. intros (_ & L). eapply labels_apart_like; eauto. Qed.
  Lemma from_ren st st' : s_0 st' = s_0 st \/ (exists r, s_0 st' = with_ren (s_0 st) r) -> s_1 st' = s_1 st \/ (exists r, s_1 st' = with_ren (s_1 st) r) ->
    from st -> from st'.
  Proof.
    intros H0 H1 (L0 & L1). split.
    - destruct H0 as [->|(r & ->)]; auto. eapply like_trans; [exact L0|apply with_ren_like].
    - destruct H1 as [->|(r & ->)]; auto. eapply like_trans; [exact L1|apply with_ren_like].
  Qed.
  Lemma from_one st b c : from st -> In b (g_blocks (s_1 st)) -> In c (g_blocks (s_1 st)) -> b_start b = b_start c -> b = c.
  Proof. intros F Ib Ic E. apply (nodup_start (g_blocks (s_1 st))); auto. now apply from_nodup1. Qed.

  (** New variables get the suffix. *)
  Lemma new_vars_names st st' : from st -> var_names st -> no_func st -> inv st ->
    each1 (fun b1 st => if btype_beq (b_type b1) BVar && match b_pair b1 with None => true | Some _ => false end
                        then new_name1 (name b1) (name b1) st else Ok st) st = Ok st' -> func_names1 st'.
  Proof.
    intros F V N Vi H. unfold each1 in H.
    apply (rfold_inv _ (fun rest s => NoDup rest /\ s_0 s = s_0 st /\ g_blocks (s_1 s) = g_blocks (s_1 st)
      /\ (forall n, r1 s n = r1 st n \/ exists b, In b (g_blocks (s_1 st)) /\ b_type b = BVar /\ b_pair b = None /\ n = name b)
      /\ (forall b, In b (g_blocks (s_1 st)) -> name b <> [] -> b_type b = BVar -> b_pair b = None ->
            if in_dec Nat.eq_dec (b_start b) rest then r1 s (name b) = None else has_suffix s b))) in H.
    - destruct H as (_ & E0 & E1 & O & D). split; [split|..].
      + intros b Ib Ne T P. rewrite E1 in Ib. exact (D b Ib Ne T P).
      + intros b s Ib Ne T P Nf. rewrite E1 in Ib. rewrite E0. destruct (O (name b)) as [->|(c & Ic & Tc & Pc & En)]; [now apply (vn_pair _ V b s)|].
        assert (b = c) by (apply (from_names _ F); auto; congruence). congruence.
      + intros b Ib T P. rewrite E1 in Ib. destruct (O (name b)) as [->|(c & Ic & Tc & Pc & En)]; [apply (vn_func _ V); auto; apply (from_func _ F); auto|].
        assert (b = c) by (apply (from_names _ F); auto; apply (from_func _ F); auto). congruence.
      + intros b Ib T (c & Ic & Tc & Ep). rewrite E1 in Ib. rewrite E0 in Ic. destruct (i_back _ Vi b _ Ib Ep) as (d & (J0 & J1 & J2) & S).
        assert (d = c) as -> by (apply (nodup_start (g_blocks (s_0 st))); auto; now apply from_nodup0). rewrite (N c Ic Tc) in J2. discriminate.
    - intros s rest u v (Nd & E0 & E1 & O & D) G. inversion Nd as [|? ? Ns Nd']; subst. split; auto.
      assert (Skip : u = v -> (forall b, In b (g_blocks (s_1 st)) -> b_start b = s -> ~ (b_type b = BVar /\ b_pair b = None)) ->
        s_0 v = s_0 st /\ g_blocks (s_1 v) = g_blocks (s_1 st)
        /\ (forall n, r1 v n = r1 st n \/ exists b, In b (g_blocks (s_1 st)) /\ b_type b = BVar /\ b_pair b = None /\ n = name b)
        /\ (forall b, In b (g_blocks (s_1 st)) -> name b <> [] -> b_type b = BVar -> b_pair b = None ->
            if in_dec Nat.eq_dec (b_start b) rest then r1 v (name b) = None else has_suffix v b)).
      { intros <- Nb. do 3 (split; auto). intros b Ib Ne T P. specialize (D b Ib Ne T P). destruct (in_dec Nat.eq_dec (b_start b) (s :: rest)) as [I|I].
        - destruct I as [I|I]; [destruct (Nb b Ib); auto|]. destruct (in_dec Nat.eq_dec (b_start b) rest); [auto|contradiction].
        - destruct (in_dec Nat.eq_dec (b_start b) rest) as [J|J]; [destruct I; now right|auto]. }
      unfold getb in G. rewrite E1 in G. change (find (fun b => Nat.eqb (b_start b) s) (g_blocks (s_1 st))) with (getb (s_1 st) s) in G.
      destruct (getb (s_1 st) s) as [b1|] eqn:Gb.
      2: { injection G as <-. apply Skip; auto. intros b Ib Eb _. rewrite <- Eb, (getb_of (s_1 st) b) in Gb; [discriminate|now apply from_nodup1|auto]. }
      apply getb_in in Gb as (I1 & S1).
      destruct (btype_beq (b_type b1) BVar) eqn:T; cbn [andb] in G.
      2: { injection G as <-. apply Skip; auto. intros b Ib Eb (Tb & _). assert (b = b1) as -> by (apply (from_one st); auto; congruence). rewrite Tb in T. discriminate. }
      destruct (b_pair b1) as [p|] eqn:Pb.
      { injection G as <-. apply Skip; auto. intros b Ib Eb (_ & Pb'). assert (b = b1) as -> by (apply (from_one st); auto; congruence). congruence. }
      assert (T1 : b_type b1 = BVar) by (destruct (b_type b1); try discriminate; reflexivity).
      unfold new_name1 in G. pose proof (ren1_blocks _ _ _ _ G) as (G0 & G1).
      split; [congruence|]. split; [congruence|]. split.
      + intros n. destruct (ren1_find _ _ _ _ G n) as [->|(-> & _)]; [apply O|right; exists b1; auto].
      + intros b Ib Ne Tb Pb'. specialize (D b Ib Ne Tb Pb'). destruct (Nat.eq_dec (b_start b) s) as [Eb|Eb].
        * assert (b = b1) as -> by (apply (from_one st); auto; congruence). destruct (in_dec Nat.eq_dec (b_start b1) rest) as [J|J]; [congruence|].
          unfold has_suffix. destruct (ren1_self _ _ _ _ G) as [[X|(_ & X)]|(X & _)]; [exact X| |];
          exfalso; apply (f_equal (@length Z)) in X; unfold kpatch_name in X; rewrite !app_length in X; cbn [length] in X; lia.
        * assert (Rb : r1 v (name b) = r1 u (name b)).
          { destruct (ren1_find _ _ _ _ G (name b)) as [X|(X & _)]; [exact X|]. destruct Eb. rewrite <- S1. f_equal. apply (from_names _ F); auto. }
          destruct (in_dec Nat.eq_dec (b_start b) (s :: rest)) as [I|I].
          -- destruct I as [I|I]; [congruence|]. destruct (in_dec Nat.eq_dec (b_start b) rest); [congruence|contradiction].
          -- destruct (in_dec Nat.eq_dec (b_start b) rest) as [J|J]; [destruct I; now right|]. unfold has_suffix in *. congruence.
    - split; [now apply from_nodup1|]. do 3 (split; auto). intros b Ib Ne T P. destruct (in_dec Nat.eq_dec (b_start b) (starts_of (s_1 st))) as [J|J].
      + apply (vn_free _ V); auto.
      + destruct J. unfold starts_of. now apply in_map.
  Qed.

  (** *** Joining functions *)
  Lemma fpair_same st st' b c : map core (g_blocks (s_0 st')) = map core (g_blocks (s_0 st)) -> b_pair b = b_pair c -> fpair st' b -> fpair st c.
  Proof.
    intros E P (d & I & T & S). destruct (map_core_in _ _ _ E I) as (e & J & A). destruct (alike_fields _ _ A) as (Es & _ & _ & _ & _ & Et & _).
    exists e. split; auto. split; congruence.
  Qed.
  Lemma suffix_neq n : n <> kpatch_name n.
  Proof. intros X. apply (f_equal (@length Z)) in X. unfold kpatch_name in X. rewrite !app_length in X. cbn [length] in X. lia. Qed.
  Lemma func_join_names b0 b1 st st' : from st -> In b0 (g_blocks (s_0 st)) -> b_type b0 = BFunc -> In b1 (g_blocks (s_1 st)) ->
    func_join b0 b1 st = Ok st' -> func_names1 st -> func_names1 st' /\ from st'.
  Proof.
    intros F I0 T0 I1 H D. pose proof (func_join_blocks _ _ _ _ H) as (B0 & B1).
    assert (F' : from st').
    { unfold func_join in H. bind H as u Eu. bind H as v Ev. unfold match_func_labels in Eu. bind Eu as x Ex. injection Eu as <-.
      unfold new_name1, ren1 in Ev. bind Ev as y Ey. injection Ev as <-. unfold new_name0, ren0 in H. bind H as z Ez. injection H as <-.
      destruct F as (L0 & L1). split.
      - eapply like_trans; [exact L0|]. cbn. eapply like_trans; [apply (updb_like (b_start b0) (set_pair (b_start b1)) (s_0 st) (keeps_pair _))|].
        do 2 (eapply like_trans; [apply with_ren_like|]). apply with_ren_like.
      - eapply like_trans; [exact L1|]. cbn. eapply like_trans; [apply (updb_like (b_start b1) (set_pair (b_start b0)) (s_1 st) (keeps_pair _))|].
        apply with_ren_like. }
    split; auto.
    assert (R : (forall n, n <> name b1 -> r1 st' n = r1 st n) /\ r1 st' (name b1) = Some (suffixed (name b1))).
    { unfold func_join in H. bind H as u Eu. bind H as v Ev. unfold match_func_labels in Eu. bind Eu as x Ex. injection Eu as <-.
      unfold new_name1 in Ev. unfold new_name0 in H. apply ren0_r1 in H.
      assert (Rv : forall n, r1 st' n = r1 v n) by (intros; unfold r1; now rewrite H). split.
      - intros n Nn. rewrite Rv. destruct (ren1_find _ _ _ _ Ev n) as [->|(X & _)]; [reflexivity|contradiction].
      - rewrite Rv. destruct (ren1_self _ _ _ _ Ev) as [[X|(_ & X)]|(X & _)]; [exact X| |]; destruct (suffix_neq _ X). }
    destruct R as (Ro & Rs).
    assert (Bk : forall b, In b (g_blocks (s_1 st')) -> b = set_pair (b_start b0) b1 \/ (In b (g_blocks (s_1 st)) /\ b <> b1)).
    { intros b Ib. rewrite B1 in Ib. apply updb_in in Ib as (c & Ic & ->). destruct (Nat.eqb (b_start c) (b_start b1)) eqn:S.
      - apply Nat.eqb_eq in S. left. f_equal. apply (from_one st); auto.
      - right. split; auto. intros ->. now rewrite Nat.eqb_refl in S. }
    assert (C0 : map core (g_blocks (s_0 st')) = map core (g_blocks (s_0 st))).
    { rewrite B0. destruct (updb_like (b_start b0) (set_pair (b_start b1)) (s_0 st) (keeps_pair _)) as [X _ _ _]. exact X. }
    assert (K0 : forall b, In b (g_blocks (s_0 st)) -> b_type b = BVar -> In b (g_blocks (s_0 st'))).
    { intros b Ib Tb. rewrite B0. apply updb_in. exists b. split; auto. destruct (Nat.eqb (b_start b) (b_start b0)) eqn:S; auto.
      apply Nat.eqb_eq in S. assert (b = b0) by (apply (nodup_start (g_blocks (s_0 st))); auto; now apply from_nodup0). congruence. }
    assert (Rn : forall b, In b (g_blocks (s_1 st)) -> b <> b1 -> name b <> [] -> r1 st' (name b) = r1 st (name b)).
    { intros b Ib Nb Ne. apply Ro. intros E. destruct Nb. apply (from_names _ F); auto. }
    destruct D as [[A B] C E]. split; [split|..].
    - intros b Ib Ne T P. destruct (Bk b Ib) as [->|(Jb & Nb)]; [discriminate|]. unfold has_suffix. rewrite Rn; auto. now apply A.
    - intros b s Ib Ne T P Nf. destruct (Bk b Ib) as [->|(Jb & Nb)].
      + destruct Nf. destruct (map_core_in _ _ b0 (eq_sym C0) I0) as (e & J & Ae). destruct (alike_fields _ _ Ae) as (Es & _ & _ & _ & _ & Et & _).
        exists e. split; auto. split; [congruence|]. cbn [set_pair b_pair]. congruence.
      + destruct (B b s Jb Ne T P) as (e & Ie & Te & Pe & X).
        * intros X. apply Nf. eapply fpair_same; [symmetry; exact C0|reflexivity|exact X].
        * exists e. split; auto. split; auto. split; auto. now rewrite Rn.
    - intros b Ib T P. destruct (Bk b Ib) as [->|(Jb & Nb)]; [discriminate|]. rewrite Rn; auto. apply (from_func _ F); auto.
    - intros b Ib T P. destruct (Bk b Ib) as [->|(Jb & Nb)]; [exact Rs|]. unfold has_suffix. rewrite Rn; auto; [|now apply (from_func _ F)].
      apply E; auto. eapply fpair_same; [exact C0|reflexivity|exact P].
  Qed.
  Lemma func_exact_names b0 st st' : In b0 (g_blocks (s_0 st)) -> func_exact b0 st = Ok st' -> func_names1 st /\ from st -> func_names1 st' /\ from st'.
  Proof.
    intros I H (D & F). unfold func_exact in H. destruct (btype_beq (b_type b0) BFunc) eqn:T; cbn [negb orb] in H; [|injection H as <-; auto]. apply btype_func in T.
    destruct (b_auto b0); [injection H as <-; auto|]. destruct (find_by_name _ _) as [b1|] eqn:Fb; [|injection H as <-; auto].
    unfold find_by_name in Fb. apply find_some in Fb as (I1 & _). eapply func_join_names; eauto.
  Qed.
  Lemma match_human_ren o c b0 b1 st q st' : match_human o c b0 b1 st = Ok (q, st') ->
    s_1 st' = s_1 st /\ exists r, s_0 st' = with_ren (s_0 st) r.
  Proof.
    unfold match_human. intros H.
    assert (X : st' = st -> s_1 st' = s_1 st /\ exists r, s_0 st' = with_ren (s_0 st) r).
    { intros ->. split; auto. exists (g_ren (s_0 st)). now destruct (s_0 st). }
    destruct b1 as [b1|]; [|injection H as _ <-; auto]. destruct (negb (b_auto b1) || _); [injection H as _ <-; auto|].
    destruct c; [|injection H as _ <-; auto]. bind H as u E. bind H as d Ed. bind H as v Ev. injection H as _ <-.
    unfold match_func_labels in E, Ev. bind E as x Ex. injection E as <-. bind Ev as y Ey. injection Ev as <-. split; auto. exists y. reflexivity.
  Qed.
  Lemma func_names1_ren0 st st' r : s_1 st' = s_1 st -> s_0 st' = with_ren (s_0 st) r -> func_names1 st -> func_names1 st'.
  Proof.
    intros E1 E0 [[A B] C D]. assert (R : forall n, r1 st' n = r1 st n) by (intros; unfold r1; now rewrite E1).
    assert (Fp : forall b, fpair st' b <-> fpair st b) by (intros b; unfold fpair; now rewrite E0).
    split; [split|..]; unfold has_suffix in *; rewrite ?E1, ?E0; cbn [with_ren g_blocks].
    - intros b Ib Ne T P. rewrite R. now apply A.
    - intros b s Ib Ne T P Nf. rewrite R. apply (B b s); auto. intros X. apply Nf. now apply Fp.
    - intros b Ib T P. rewrite R. now apply C.
    - intros b Ib T P. rewrite R. apply D; auto. now apply Fp.
  Qed.
  Lemma func_human_names o c b0 st st' : In b0 (g_blocks (s_0 st)) -> func_human o c b0 st = Ok st' -> func_names1 st /\ from st -> func_names1 st' /\ from st'.
  Proof.
    intros I H (D & F). unfold func_human in H. destruct (btype_beq (b_type b0) BFunc) eqn:T; cbn [negb orb] in H; [|injection H as <-; auto]. apply btype_func in T.
    destruct (_ || _); [injection H as <-; auto|]. bind H as x E. destruct x as [q u]. cbn [fst snd] in H.
    pose proof (match_human_ren _ _ _ _ _ _ _ E) as (E1 & r & E0).
    assert (Du : func_names1 u) by (eapply func_names1_ren0; eauto). assert (Fu : from u) by (eapply from_ren; [right; exists r; exact E0|left; exact E1|exact F]).
    apply match_human_quiet in E as (_ & Hq). destruct q as [b1|]; [|injection H as <-; auto]. destruct (Hq b1 eq_refl) as (Fb & _).
    unfold find_by_hname in Fb. apply find_some in Fb as (I1 & _).
    eapply (func_join_names b0 b1 u); eauto; [rewrite E0; exact I|rewrite E1; exact I1].
  Qed.

  (** *** Labels *)
  Lemma add_mono r s d r' n e : rename_add r s d = Ok r' -> rename_find r n = Some e -> rename_find r' n = Some e.
  Proof.
    unfold rename_add. intros H E. destruct (same s d); [injection H as <-; auto|].
    destruct (rename_find r s) as [d'|] eqn:F; [destruct (same d' d); [injection H as <-; auto|discriminate]|].
    injection H as <-. rewrite find_cons. destruct (same s n) eqn:S; auto. apply same_spec in S. congruence.
  Qed.
  Lemma add_self r s d r' : rename_add r s d = Ok r' -> s <> d -> rename_find r' s = Some d.
  Proof.
    unfold rename_add. intros H N. destruct (same s d) eqn:Sd; [apply same_spec in Sd; contradiction|].
    destruct (rename_find r s) as [d'|] eqn:F.
    - destruct (same d' d) eqn:S; [injection H as <-; apply same_spec in S; congruence|discriminate].
    - injection H as <-. rewrite find_cons. now rewrite same_refl.
  Qed.
  Lemma new_labels_inv nm x ls r r' : new_labels nm r (x :: ls) = Ok r' ->
    (label_name x = nm /\ new_labels nm r ls = Ok r')
    \/ (label_name x <> nm /\ exists q, rename_add r (label_name x) (kpatch_name (label_name x)) = Ok q /\ new_labels nm q ls = Ok r').
  Proof.
    cbn [new_labels]. unfold label_name. destruct (get_token (Some (l_text x))) as [t s] eqn:G. cbn [fst]. intros H.
    destruct s as [[|c s]|]; try discriminate. destruct (Z.eq_dec c 58) as [->|Nc].
    2: { exfalso. clear - H Nc. destruct c as [|p|p]; try discriminate H. repeat (destruct p as [p|p|]; try discriminate H). congruence. }
    destruct (same (txt t) nm) eqn:S; [left; split; auto; now apply same_spec|right]. split; [intros X; rewrite X, same_refl in S; discriminate|].
    bind H as q A. eauto.
  Qed.
  Lemma new_labels_mono nm n e : forall ls r r', new_labels nm r ls = Ok r' -> rename_find r n = Some e -> rename_find r' n = Some e.
  Proof.
    induction ls as [|x ls IH]; intros r r' H E; [injection H as <-; auto|].
    apply new_labels_inv in H as [(_ & H)|(_ & q & A & H)]; [eauto|]. eapply IH; [exact H|]. eapply add_mono; eauto.
  Qed.
  Lemma new_labels_done nm : forall ls r r', new_labels nm r ls = Ok r' -> forall x, In x ls -> label_name x <> nm ->
    rename_find r' (label_name x) = Some (kpatch_name (label_name x)).
  Proof.
    induction ls as [|y ls IH]; intros r r' H x I N; [destruct I|].
    apply new_labels_inv in H as [(E & H)|(_ & q & A & H)]; destruct I as [<-|I]; eauto; [contradiction|].
    eapply new_labels_mono; [exact H|]. eapply add_self; [exact A|apply suffix_neq].
  Qed.
  Lemma nth_label_in f b i n : nth_label f b i n -> exists x, In x (labels (blines f b)) /\ n = label_name x.
  Proof.
    intros (u & x & v & E & T & _ & ts & H). exists x. split.
    - unfold labels. apply filter_In. split; [rewrite E; apply in_elt|]. rewrite T. reflexivity.
    - destruct (label_tokens x) as (ts' & H'). apply has_tokens_toks in H, H'. pose proof (toks_det _ _ H _ H') as X. congruence.
  Qed.
  Lemma nth_label_lines f g b i n : g_lines f = g_lines g -> nth_label f b i n -> nth_label g b i n.
  Proof. unfold nth_label, blines. now intros ->. Qed.
  Definition touch (b : cblock) (st st' : gst) : Prop := forall n, r1 st' n = r1 st n \/ n = name b
    \/ (r1 st n = None /\ n <> name b /\ exists i, nth_label (s_1 st) b i n).
  Lemma touch_name b c st st' : from st -> In b (g_blocks (s_1 st)) -> b_type b = BFunc -> In c (g_blocks (s_1 st)) -> name c <> [] -> b_start c <> b_start b ->
    touch b st st' -> r1 st' (name c) = r1 st (name c).
  Proof.
    intros F Ib T Ic Ne Ns X. destruct (X (name c)) as [Y|[Y|(_ & _ & i & Y)]]; auto; exfalso; apply Ns.
    - f_equal. apply (from_names _ F); auto.
    - eapply (from_labels _ F b c); eauto.
  Qed.
  Lemma touch_labels b c st st' : from st -> In b (g_blocks (s_1 st)) -> b_type b = BFunc -> In c (g_blocks (s_1 st)) -> b_type c = BFunc ->
    g_lines (s_1 st') = g_lines (s_1 st) -> touch b st st' -> labels_done st c -> labels_done st' c.
  Proof.
    intros F Ib T Ic Tc L X D i n H N. apply (nth_label_lines _ (s_1 st)) in H; auto. specialize (D i n H N).
    destruct (X n) as [Y|[Y|(Y & _)]]; [congruence| |congruence].
    exfalso. apply N. rewrite Y. f_equal. apply (from_one st); auto. eapply (from_labels _ F c b); eauto.
  Qed.
  Lemma make_new_labels_names b st st' : make_new_labels b st = Ok st' ->
    touch b st st' /\ r1 st' (name b) = r1 st (name b) /\ labels_done st' b /\ s_0 st' = s_0 st /\ exists r, s_1 st' = with_ren (s_1 st) r.
  Proof.
    unfold make_new_labels. intros H. bind H as r E. injection H as <-.
    assert (K : forall n, r1 (with_1 st (with_ren (s_1 st) r)) n = r1 st n \/ (r1 st n = None /\ n <> name b /\ exists i, nth_label (s_1 st) b i n)).
    { intros n. unfold r1. cbn [with_1 s_1 with_ren g_ren].
      destruct (rename_find (g_ren (s_1 st)) n) as [d|] eqn:F; [left; eapply new_labels_mono; eauto|].
      destruct (rename_find r n) as [d|] eqn:G; [|auto]. right. split; auto.
      destruct (new_labels_find _ _ _ _ E n d G) as [X|(_ & Nn & i & x & Hx & ->)]; [congruence|]. split; auto. exists i. now apply nth_label_of. }
    split; [intros n; destruct (K n); auto|]. split; [destruct (K (name b)) as [X|(_ & X & _)]; [exact X|contradiction]|].
    split; [|split; [reflexivity|exists r; reflexivity]]. intros i n X Nn. apply (nth_label_lines _ (s_1 st)) in X; [|reflexivity].
    apply nth_label_in in X as (x & Ix & ->). unfold r1. cbn [with_1 s_1 with_ren g_ren]. eapply new_labels_done; eauto.
  Qed.
  Lemma from_starts st b : from st -> In b (g_blocks (s_1 st)) -> In (b_start b) (starts_of f1).
  Proof. intros (_ & L) I. rewrite <- (like_starts _ _ L). unfold starts_of. now apply in_map. Qed.

  (** *** New functions *)
  Definition new_done (st : gst) (b : cblock) : Prop :=
    (b_auto b = true -> has_suffix st b) /\ (b_auto b = false -> r1 st (name b) = None) /\ labels_done st b.
  Record new_names (rest : list nat) (st : gst) : Prop := {
    nn_from : from st; nn_vars : vars_named st; nn_nodup : NoDup rest;
    nn_old : forall b, In b (g_blocks (s_1 st)) -> b_type b = BFunc -> fpair st b -> has_suffix st b;
    nn_todo : forall b, In b (g_blocks (s_1 st)) -> b_type b = BFunc -> b_pair b = None -> In (b_start b) rest -> r1 st (name b) = None;
    nn_done : forall b, In b (g_blocks (s_1 st)) -> b_type b = BFunc -> b_pair b = None -> ~ In (b_start b) rest -> new_done st b }.
  Lemma new_names_skip s rest st : (forall b, In b (g_blocks (s_1 st)) -> b_start b = s -> ~ (b_type b = BFunc /\ b_pair b = None)) ->
    new_names (s :: rest) st -> new_names rest st.
  Proof.
    intros K [A B C D E G]. inversion C as [|? ? Ns C']; subst. split; auto; intros b Ib T P I; [apply E; auto; now right|].
    apply G; auto. intros [X|X]; [|contradiction]. exact (K b Ib (eq_sym X) (conj T P)).
  Qed.
  Lemma func_new_names s rest st st' : match getb (s_1 st) s with Some b => func_new b st | None => Ok st end = Ok st' ->
    new_names (s :: rest) st -> new_names rest st'.
  Proof.
    intros H V. pose proof (nn_from _ _ V) as F. destruct (getb (s_1 st) s) as [b1|] eqn:G.
    2: { injection H as <-. eapply new_names_skip; [|exact V]. intros b Ib Eb _. rewrite <- Eb, (getb_of (s_1 st) b) in G; [discriminate|now apply from_nodup1|auto]. }
    apply getb_in in G as (I1 & S1). unfold func_new in H. destruct (btype_beq (b_type b1) BFunc) eqn:T; cbn [negb orb] in H.
    2: { injection H as <-. eapply new_names_skip; [|exact V]. intros b Ib Eb (Tb & _). assert (b = b1) as -> by (apply (from_one st); auto; congruence). rewrite Tb in T. discriminate. }
    apply btype_func in T. destruct (b_pair b1) as [p|] eqn:P.
    { injection H as <-. eapply new_names_skip; [|exact V]. intros b Ib Eb (_ & Pb). assert (b = b1) as -> by (apply (from_one st); auto; congruence). congruence. }
    destruct V as [_ Va Nd O Td Dn]. inversion Nd as [|? ? Ns Nd']; subst.
    assert (R : r1 st (name b1) = None) by (apply Td; auto; now left). unfold r1 in R. rewrite R in H.
    bind H as u E. destruct (make_new_labels_names _ _ _ H) as (Tu & Ru & Lu & E0 & r & E1).
    assert (X : (forall n, n <> name b1 -> r1 u n = r1 st n) /\ (if b_auto b1 then r1 u (name b1) = Some (suffixed (name b1)) else r1 u (name b1) = None)
       /\ s_0 u = s_0 st /\ exists q, s_1 u = with_ren (s_1 st) q).
    { destruct (b_auto b1).
      - split; [|split; [|split]].
        + intros n Nn. destruct (ren1_find _ _ _ _ E n) as [Y|(Y & _)]; [exact Y|contradiction].
        + destruct (ren1_self _ _ _ _ E) as [[Y|(_ & Y)]|(Y & _)]; [exact Y| |]; destruct (suffix_neq _ Y).
        + now apply ren1_blocks in E.
        + unfold new_name1, ren1 in E. bind E as q Eq. injection E as <-. eexists. reflexivity.
      - injection E as <-. split; auto. split; auto. split; auto. exists (g_ren (s_1 st)). now destruct (s_1 st). }
    destruct X as (Xo & Xs & X0 & q & X1).
    assert (Fu : from u) by (eapply from_ren; [left; exact X0|right; exists q; exact X1|exact F]).
    assert (F' : from st') by (eapply from_ren; [left; exact E0|right; exists r; exact E1|exact Fu]).
    assert (Tt : touch b1 st st').
    { intros n. destruct (Tu n) as [Y|[Y|(Y & Nn & i & Z)]]; auto.
      - destruct (text_eq_dec n (name b1)); [auto|]. left. rewrite Y. auto.
      - right. right. split; [rewrite <- Xo; auto|]. split; auto. exists i. eapply nth_label_lines; [|exact Z]. now rewrite X1. }
    assert (E01 : s_0 st' = s_0 st) by congruence.
    assert (Bk : g_blocks (s_1 st') = g_blocks (s_1 st)) by (rewrite E1, X1; reflexivity).
    assert (Ln : g_lines (s_1 st') = g_lines (s_1 st)) by (rewrite E1, X1; reflexivity).
    assert (Fp : forall b, fpair st' b <-> fpair st b) by (intros b; unfold fpair; now rewrite E01).
    assert (Rn : forall b, In b (g_blocks (s_1 st)) -> name b <> [] -> b_start b <> b_start b1 -> r1 st' (name b) = r1 st (name b)).
    { intros b Ib Ne Nb. eapply touch_name; [exact F|exact I1| | | | |exact Tt]; auto. }
    assert (Ns1 : forall b, b_type b <> BFunc \/ b_pair b <> None -> In b (g_blocks (s_1 st)) -> b_start b <> b_start b1).
    { intros b Q Ib S. assert (b = b1) as -> by (apply (from_one st); auto). destruct Q; congruence. }
    destruct Va as [A B]. split; auto.
    - split; rewrite Bk, ?E01.
      + intros b Ib Ne Tb Pb. unfold has_suffix. rewrite Rn; auto; [now apply A|]. apply Ns1; auto. left. congruence.
      + intros b s Ib Ne Tb Pb Nf. rewrite Rn; auto; [|apply Ns1; auto; left; congruence]. apply (B b s); auto. intros Y. apply Nf. now apply Fp.
    - intros b Ib Tb Pb. rewrite Bk in Ib. unfold has_suffix. rewrite Rn; auto; [|now apply (from_func _ F)|].
      + apply O; auto. now apply Fp.
      + apply Ns1; auto. right. destruct Pb as (c & _ & _ & Pb). congruence.
    - intros b Ib Tb Pb I. rewrite Bk in Ib. rewrite Rn; auto; [|now apply (from_func _ F)|intros Y; congruence]. apply Td; auto. now right.
    - intros b Ib Tb Pb I. rewrite Bk in Ib. destruct (Nat.eq_dec (b_start b) (b_start b1)) as [S|S].
      + assert (b = b1) as -> by (apply (from_one st); auto). unfold new_done, has_suffix. rewrite Ru. destruct (b_auto b1); split; auto; try discriminate; split; auto; discriminate.
      + destruct (Dn b Ib Tb Pb) as (D1 & D2 & D3); [intros [Y|Y]; [congruence|contradiction]|]. unfold new_done, has_suffix in *. rewrite !Rn; auto; try (now apply (from_func _ F)).
        split; auto. split; auto. eapply touch_labels; [exact F|exact I1| | | | |exact Tt|exact D3]; auto.
  Qed.

  (** *** Functions left out and functions that are the same or changed *)
  Definition asked (o : gopts) (st : gst) (b : cblock) : Prop := in_syms_list (go_conf o) (g_base (s_1 st)) (hname b) (go_ignore o) = true.
  Definition pair_done (o : gopts) (rest : list nat) (st : gst) (b : cblock) : Prop :=
    (b_ignore b = false -> has_suffix st b /\ (~ In (b_start b) rest -> labels_done st b))
    /\ (b_ignore b = true -> (asked o st b /\ r1 st (name b) = None)
          \/ (exists b0, In b0 (g_blocks (s_0 st)) /\ b_type b0 = BFunc /\ b_pair b = Some (b_start b0) /\ tells (r1 st (name b)) (name b) (name b0))).
  Record all_names (o : gopts) (rest : list nat) (st : gst) : Prop := {
    an_from : from st; an_vars : vars_named st;
    an_newf : forall b, In b (g_blocks (s_1 st)) -> b_type b = BFunc -> b_pair b = None -> new_done st b;
    an_oldf : forall b, In b (g_blocks (s_1 st)) -> b_type b = BFunc -> fpair st b -> pair_done o rest st b }.
  Lemma step_names o rest rest' b1 p st st' : all_names o rest st -> In b1 (g_blocks (s_1 st)) -> b_type b1 = BFunc -> b_pair b1 = Some p ->
    from st' -> touch b1 st st' -> g_blocks (s_0 st') = g_blocks (s_0 st) -> g_lines (s_1 st') = g_lines (s_1 st) -> g_base (s_1 st') = g_base (s_1 st) ->
    (forall b, In b (g_blocks (s_1 st')) -> b_start b <> b_start b1 -> In b (g_blocks (s_1 st))) ->
    (forall b, In b (g_blocks (s_1 st')) -> b_start b = b_start b1 -> b_type b = BFunc /\ b_pair b = Some p /\ (fpair st b -> pair_done o rest' st' b)) ->
    (forall s, ~ In s rest' -> s <> b_start b1 -> ~ In s rest) -> all_names o rest' st'.
  Proof.
    intros [F [A B] C D] I1 T1 P1 F' Tt B0 Ln Bs Ot Sf Rs.
    assert (Fp : forall b, fpair st' b <-> fpair st b) by (intros b; unfold fpair; now rewrite B0).
    assert (Rn : forall b, In b (g_blocks (s_1 st)) -> name b <> [] -> b_start b <> b_start b1 -> r1 st' (name b) = r1 st (name b)).
    { intros b Ib Ne Nb. eapply touch_name; [exact F|exact I1| | | | |exact Tt]; auto. }
    assert (Lb : forall b, In b (g_blocks (s_1 st)) -> b_type b = BFunc -> labels_done st b -> labels_done st' b).
    { intros b Ib Tb. eapply touch_labels; [exact F|exact I1| | | | |exact Tt]; auto. }
    assert (Ns : forall b, In b (g_blocks (s_1 st')) -> b_type b <> BFunc \/ b_pair b = None -> b_start b <> b_start b1).
    { intros b Ib Q S. destruct (Sf b Ib S) as (X & Y & _). destruct Q; congruence. }
    split; auto.
    - split; rewrite ?B0.
      + intros b Ib Ne Tb Pb. assert (S : b_start b <> b_start b1) by (apply Ns; auto; left; congruence).
        unfold has_suffix. rewrite Rn; auto. apply A; auto.
      + intros b s Ib Ne Tb Pb Nf. assert (S : b_start b <> b_start b1) by (apply Ns; auto; left; congruence).
        rewrite Rn; auto. apply (B b s); auto. intros Y. apply Nf. now apply Fp.
    - intros b Ib Tb Pb. assert (S : b_start b <> b_start b1) by (apply Ns; auto). specialize (Ot b Ib S).
      destruct (C b Ot Tb Pb) as (D1 & D2 & D3). unfold new_done, has_suffix in *. rewrite !Rn; auto; now apply (from_func _ F).
    - intros b Ib Tb Pb. apply Fp in Pb. destruct (Nat.eq_dec (b_start b) (b_start b1)) as [S|S]; [now apply Sf|]. specialize (Ot b Ib S).
      destruct (D b Ot Tb Pb) as (D1 & D2). unfold pair_done, has_suffix, asked in *. rewrite !Rn, Bs, B0; auto; try (now apply (from_func _ F)).
      split; auto. intros Ig. destruct (D1 Ig) as (X & Y). split; auto.
  Qed.
  Lemma touch_self b st st' : (forall n, n <> name b -> r1 st' n = r1 st n) -> touch b st st'.
  Proof. intros H n. destruct (text_eq_dec n (name b)); auto. Qed.
  Lemma from_upd1 s g st : keeps g -> from st -> from (upd1 s g st).
  Proof. intros K (A & B). split; auto. cbn [upd1 with_1 s_1]. eapply like_trans; [exact B|now apply updb_like]. Qed.
  Lemma upd1_others s g st : keeps g -> forall b, In b (g_blocks (s_1 (upd1 s g st))) -> b_start b <> s -> In b (g_blocks (s_1 st)).
  Proof.
    intros K b I N. cbn [upd1 with_1 s_1] in I. apply updb_in in I as (c & Ic & ->). destruct (Nat.eqb (b_start c) s) eqn:E; auto.
    apply Nat.eqb_eq in E. exfalso. apply N. specialize (K c). apply alike_fields in K. destruct K as (K & _). congruence.
  Qed.
  Lemma upd1_self b1 g st : keeps g -> from st -> In b1 (g_blocks (s_1 st)) -> forall b, In b (g_blocks (s_1 (upd1 (b_start b1) g st))) -> b_start b = b_start b1 -> b = g b1.
  Proof.
    intros K F I1 b I S. cbn [upd1 with_1 s_1] in I. apply updb_in in I as (c & Ic & ->). destruct (Nat.eqb (b_start c) (b_start b1)) eqn:E.
    - apply Nat.eqb_eq in E. now rewrite (from_one st c b1).
    - rewrite S, Nat.eqb_refl in E. discriminate.
  Qed.
  Lemma func_config_names o rest b1 st st' : In b1 (g_blocks (s_1 st)) -> func_config o b1 st = Ok st' -> rest = starts_of f1 ->
    all_names o rest st -> all_names o rest st'.
  Proof.
    intros I1 H -> V. unfold func_config in H. destruct (btype_beq (b_type b1) BFunc) eqn:T; cbn [negb] in H; [|injection H as <-; auto]. apply btype_func in T.
    destruct (b_pair b1) as [p|] eqn:P; [|injection H as <-; auto]. bind H as u E.
    assert (X : all_names o (starts_of f1) u /\ exists b, In b (g_blocks (s_1 u)) /\ b_type b = BFunc /\ b_pair b = Some p /\ b_start b = b_start b1 /\ hname b = hname b1).
    { destruct (in_syms_list (go_conf o) _ _ _) eqn:Q; [|injection E as <-; eauto 10]. destruct (getb (s_0 st) p) as [b0|]; [|discriminate]. injection E as <-.
      pose proof (an_from _ _ _ V) as F. set (u := del0 (name b0) (del1 (name b1) st)).
      assert (Fu : from u) by (eapply (from_ren st); [right; eexists; reflexivity|right; eexists; reflexivity|exact F]).
      assert (R : forall n, r1 (upd1 (b_start b1) set_ignore u) n = if same (name b1) n then None else r1 st n) by (intros n; apply (del1_find st (name b1) n)).
      split.
      - eapply (step_names o (starts_of f1) _ b1 p st); auto.
        + apply from_upd1; [apply keeps_ignore|exact Fu].
        + apply touch_self. intros n N. rewrite R. destruct (same (name b1) n) eqn:S; auto. apply same_spec in S. congruence.
        + intros b Ib N. apply (upd1_others (b_start b1) set_ignore u) in Ib; auto. apply keeps_ignore.
        + intros b Ib S. apply (upd1_self b1 set_ignore u) in Ib; auto; [|apply keeps_ignore]. subst b. split; auto. split; auto. intros _. split; [discriminate|].
          intros _. left. split; [exact Q|]. rewrite R. change (name (set_ignore b1)) with (name b1). now rewrite same_refl.
      - exists (set_ignore b1). split; [|auto]. apply (updb_in (b_start b1) set_ignore (s_1 u)). exists b1. split; auto. now rewrite Nat.eqb_refl. }
    destruct X as (Vu & b & Ib & Tb & Pb & Sb & Hb). destruct (in_syms_list None _ _ _); injection H as <-; [|exact Vu]. pose proof (an_from _ _ _ Vu) as Fu. rewrite <- Sb.
    eapply (step_names o (starts_of f1) _ b p u); auto.
    - apply from_upd1; [apply keeps_unlink|exact Fu].
    - intros n. now left.
    - intros c Ic N. apply (upd1_others (b_start b) set_unlink u) in Ic; auto. apply keeps_unlink.
    - intros c Ic S. apply (upd1_self b set_unlink u) in Ic; auto; [|apply keeps_unlink]. subst c. split; auto. split; auto. intros Fp.
      exact (an_oldf _ _ _ Vu b Ib Tb Fp).
  Qed.
  Lemma func_changed_names o s rest x x' : func_changed o s x = Ok x' -> NoDup (s :: rest) -> all_names o (s :: rest) (fst x) -> all_names o rest (fst x').
  Proof.
    destruct x as [st na]. cbn [fst]. intros H Nd V. unfold func_changed in H. pose proof (an_from _ _ _ V) as F.
    assert (Sk : (forall b, In b (g_blocks (s_1 st)) -> b_start b = s -> b_type b = BFunc -> b_pair b <> None -> b_ignore b = true) -> all_names o rest st).
    { intros K. destruct V as [_ A B C]. split; auto. intros b Ib T P. destruct (C b Ib T P) as (D & E). split; auto. intros Ig. destruct (D Ig) as (X & Y). split; auto.
      intros N. apply Y. intros [Z|Z]; [|contradiction]. rewrite (K b) in Ig; auto; [discriminate|]. destruct P as (c & _ & _ & ->). discriminate. }
    destruct (getb (s_1 st) s) as [b1|] eqn:G.
    2: { injection H as <-. apply Sk. intros b Ib E. rewrite <- E, (getb_of (s_1 st) b) in G; [discriminate|now apply from_nodup1|auto]. }
    apply getb_in in G as (I1 & <-). assert (One : forall b, In b (g_blocks (s_1 st)) -> b_start b = b_start b1 -> b = b1) by (intros; now apply (from_one st)).
    destruct (btype_beq (b_type b1) BFunc) eqn:T; cbn [negb orb] in H.
    2: { injection H as <-. apply Sk. intros b Ib E Tb _. apply One in E; auto. subst b. rewrite Tb in T. discriminate. }
    apply btype_func in T. destruct (b_ignore b1) eqn:Ig; [injection H as <-; apply Sk; intros b Ib E _ _; apply One in E; auto; now subst b|].
    destruct (b_pair b1) as [p|] eqn:P; [|injection H as <-; apply Sk; intros b Ib E _ N; apply One in E; auto; now subst b].
    destruct (getb (s_0 st) p) as [b0|] eqn:G0; [|discriminate]. apply getb_in in G0 as (I0 & S0). bind H as d Ed.
    assert (Rs : forall s, ~ In s rest -> s <> b_start b1 -> ~ In s (b_start b1 :: rest)) by (intros s N Ns [X|X]; [congruence|contradiction]).
    destruct d; cbn [negb] in H.
    - bind H as u E. injection H as <-. cbn [fst]. destruct (make_new_labels_names _ _ _ E) as (Tt & Ru & Lu & E0 & r & E1).
      assert (Fu : from u) by (eapply from_ren; [left; exact E0|right; exists r; exact E1|exact F]).
      eapply (step_names o (b_start b1 :: rest) _ b1 p st); auto; try (now rewrite ?E0, ?E1).
      + intros b Ib S. rewrite E1 in Ib. apply One in S; auto. subst b. split; auto. split; auto. intros Fp.
        destruct (an_oldf _ _ _ V b1 I1 T Fp) as (D & _). split; [|congruence]. intros _. destruct (D Ig) as (X & _). split; auto. unfold has_suffix in *. congruence.
    - bind H as u E. bind H as v Ev. injection H as <-. cbn [fst].
      assert (E1 : s_1 u = s_1 (del1 (name b1) (del0 (name b0) st))) by (eapply ren0_r1; eauto).
      assert (Bv : s_0 v = s_0 u) by (now apply ren1_blocks in Ev).
      assert (B0 : g_blocks (s_0 u) = g_blocks (s_0 st)) by (unfold ren0 in E; bind E as q Eq; now injection E as <-).
      assert (Fu : from u).
      { eapply (from_ren st); [| |exact F].
        - right. unfold ren0 in E. bind E as q Eq. injection E as <-. eexists. reflexivity.
        - right. rewrite E1. eexists. reflexivity. }
      assert (Ev1 : exists q, s_1 v = with_ren (s_1 u) q) by (unfold ren1 in Ev; bind Ev as q Eq; injection Ev as <-; eexists; reflexivity). destruct Ev1 as (q & Ev1).
      assert (Fv : from v) by (eapply from_ren; [left; exact Bv|right; exists q; exact Ev1|exact Fu]).
      assert (Ru : forall n, r1 u n = if same (name b1) n then None else r1 st n).
      { intros n. unfold r1 at 1. rewrite E1. apply (del1_find st (name b1) n). }
      assert (Bk : g_blocks (s_1 v) = g_blocks (s_1 st)) by (rewrite Ev1; cbn [with_ren g_blocks]; now rewrite E1).
      assert (I1v : In b1 (g_blocks (s_1 v))) by (now rewrite Bk).
      eapply (step_names o (b_start b1 :: rest) _ b1 p st); auto.
      + apply from_upd1; [apply keeps_ignore|exact Fv].
      + apply touch_self. intros n N. change (r1 (upd1 (b_start b1) set_ignore v) n) with (r1 v n).
        destruct (ren1_find _ _ _ _ Ev n) as [X|(X & _)]; [|contradiction]. rewrite X, Ru. destruct (same (name b1) n) eqn:S; auto. apply same_spec in S. congruence.
      + cbn [upd1 with_1 s_0]. now rewrite Bv.
      + cbn [upd1 with_1 s_1 updb with_blocks g_lines]. rewrite Ev1. cbn [with_ren g_lines]. now rewrite E1.
      + cbn [upd1 with_1 s_1 updb with_blocks g_base]. rewrite Ev1. cbn [with_ren g_base]. now rewrite E1.
      + intros b Ib N. apply (upd1_others (b_start b1) set_ignore v) in Ib; auto; [|apply keeps_ignore]. now rewrite <- Bk.
      + intros b Ib S. apply (upd1_self b1 set_ignore v) in Ib; auto; [|apply keeps_ignore]. subst b. split; auto. split; auto. intros (c & Ic & Tc & Pc). split; [discriminate|].
        intros _. right. exists b0. assert (c = b0) as ->.
        { apply (nodup_start (g_blocks (s_0 st))); auto; [now apply from_nodup0|]. cbn [set_ignore b_pair] in Pc. congruence. }
        split; [cbn [upd1 with_1 s_0]; now rewrite Bv, B0|]. split; auto. split; [cbn [set_ignore b_pair]; congruence|].
        change (r1 (upd1 (b_start b1) set_ignore v) (name (set_ignore b1))) with (r1 v (name b1)). change (name (set_ignore b1)) with (name b1).
        destruct (ren1_self _ _ _ _ Ev) as [X|(X & Y)]; [exact X|]. right. split; [|exact X]. rewrite Y, Ru. now rewrite same_refl.
  Qed.
  Lemma each1_rest g (P : list nat -> gst -> Prop) st st' :
    (forall s r u v, match getb (s_1 u) s with Some b => g b u | None => Ok u end = Ok v -> P (s :: r) u -> P r v) ->
    each1 g st = Ok st' -> P (starts_of (s_1 st)) st -> P [] st'.
  Proof. intros K H P0. unfold each1 in H. eapply (rfold_inv _ P) in H; [exact H| |exact P0]. intros s r a b Pa E. eapply K; eauto. Qed.
  Lemma analyze_func_names o st st' : analyze_func o st = Ok st' -> func_names1 st -> from st -> no_flags st -> all_names o [] st'.
  Proof.
    intros H D F Nf. unfold analyze_func in H. bind H as x1 E1. bind H as x2 E2. bind H as x3 E3. bind H as x4 E4. bind H as x5 E5. bind H as y E6.
    assert (P3 : func_names1 x3 /\ from x3).
    { eapply (each0_prop _ (fun s => func_names1 s /\ from s)); [|exact E3|]; [intros; eapply func_human_names; eauto|].
      eapply (each0_prop _ (fun s => func_names1 s /\ from s)); [|exact E2|]; [intros; eapply func_human_names; eauto|].
      eapply (each0_prop _ (fun s => func_names1 s /\ from s)); [|exact E1|]; [intros; eapply func_exact_names; eauto|]. auto. }
    assert (N4 : no_flags x4).
    { eapply (each1_prop _ no_flags); [|exact E4|]; [intros b s s' _ G; apply func_new_flags in G as (_ & G); now apply no_flags_blocks|].
      eapply (each0_prop _ no_flags); [|exact E3|]; [intros b s s' _ G; eapply func_human_flags; eauto|].
      eapply (each0_prop _ no_flags); [|exact E2|]; [intros b s s' _ G; eapply func_human_flags; eauto|].
      eapply (each0_prop _ no_flags); [|exact E1|exact Nf]. intros b s s' _ G. eapply func_exact_flags; eauto. }
    destruct P3 as ([Va Fd Fo] & F3).
    assert (P4 : new_names [] x4).
    { eapply (each1_rest func_new new_names); [|exact E4|].
      - intros s r u v G X. eapply func_new_names; eauto.
      - split; auto; [now apply from_nodup1|]. intros b Ib _ _ N. destruct N. unfold starts_of. now apply in_map. }
    destruct P4 as [F4 V4 _ O4 _ D4].
    assert (P5 : all_names o (starts_of f1) x5).
    { eapply (each1_prop _ (all_names o (starts_of f1))); [|exact E5|]; [intros; eapply func_config_names; eauto|].
      split; auto. intros b Ib T P. split; [|intros Ig; destruct (N4 b Ib); congruence]. intros _. split; auto. intros N. destruct N. now apply (from_starts x4). }
    assert (P6 : NoDup (@nil nat) /\ all_names o [] (fst y)).
    { eapply (rfold_inv (func_changed o) (fun r z => NoDup r /\ all_names o r (fst z))) in E6; [exact E6| |].
      - intros s r a b (N & A) G. split; [now inversion N|]. eapply func_changed_names; eauto.
      - destruct P5 as [F5 A B C]. cbn [fst]. destruct F5 as (F50 & F51). rewrite (like_starts _ _ F51). split; [exact W1|]. split; auto. now split. }
    destruct (snd y); [discriminate|]. injection H as <-. apply P6.
  Qed.
End Names.

(** ** The whole analysis *)
Lemma analyze_var_names o f0 f1 st' : names f1 -> NoDup (starts_of f0) -> NoDup (starts_of f1) -> func_names f1 -> labels_apart f1 ->
  Forall fresh (g_blocks f1) -> g_ren f1 = [] -> inv (start f0 f1) -> no_func (start f0 f1) ->
  analyze_var o (start f0 f1) = Ok st' -> func_names1 st'.
Proof.
  intros Nm W0 W1 Fn La Fr Re I N H. unfold analyze_var in H. bind H as x E. bind H as x0 E0. unfold var_matches in E. bind E as x1 E1.
  pose proof (var_rounds_pass o (start f0 f1) _ _ _ _ ltac:(split; [auto|constructor|auto]) N E1) as (P & N1).
  assert (x = x1) as -> by (eapply each0_same; [|exact E]; intros; eapply var_removed_same; eauto).
  assert (x0 = x1) as -> by (eapply each0_same; [|exact E0]; intros; eapply var_check_same; eauto).
  assert (V : var_names x1).
  { eapply (var_rounds_names o (start f0 f1)); [exact Nm| |exact N| |exact E1]; [split; [auto|constructor|auto]|].
    assert (Z : forall n, r1 (start f0 f1) n = None) by (intros n; unfold r1; cbn [start s_1]; now rewrite Re).
    rewrite Forall_forall in Fr. split; auto. intros b s Ib _ _ Pb. destruct (Fr b Ib) as (Q & _). congruence. }
  assert (F : from f0 f1 x1) by (pose proof (pass_later _ _ P) as [L0 L1 _ _]; split; auto).
  eapply (new_vars_names f0 f1); eauto. apply P.
Qed.
Theorem analyze_names a o f0 f1 st' : ready a f0 -> ready a f1 -> labels_apart f1 -> analyze o (start f0 f1) = Ok st' ->
  names_of o st' (rename_find (g_ren (s_1 st'))).
Proof.
  intros R0 R1 La H. destruct (start_inv _ _ _ R0 R1) as (I & N).
  assert (Nf : no_flags (start f0 f1)).
  { intros b Ib. pose proof (rd_fresh _ _ R1) as Fr. rewrite Forall_forall in Fr. destruct (Fr b Ib) as (_ & _ & F1 & F2 & _). auto. }
  assert (W0 : NoDup (starts_of f0)) by (apply (i_wf _ I)). assert (W1 : NoDup (starts_of f1)) by (apply (i_wf _ I)).
  pose proof (rd_names _ _ R1) as Nm. pose proof (ready_func_names _ _ R1) as Fn.
  unfold analyze in H. bind H as st1 E1. bind H as st2 E2.
  pose proof (analyze_var_names o f0 f1 st1 Nm W0 W1 Fn La (rd_fresh _ _ R1) (rd_ren _ _ R1) I N E1) as D1.
  destruct (analyze_var_ok _ _ _ I N Nf E1) as (_ & Nf1).
  destruct (analyze_var_pass _ _ _ I N E1) as (P1 & N1).
  pose proof (analyze_func_pass _ _ _ _ P1 (rd_names _ _ R0) (ready_func_names _ _ R0) N1 E2) as P2.
  assert (F1 : from f0 f1 st1) by (pose proof (pass_later _ _ P1) as [L0 L1 _ _]; split; auto).
  pose proof (analyze_func_names f0 f1 W0 W1 Nm Fn La o st1 st2 E2 D1 F1 Nf1) as [_ [Vn Vo] Fnew Fold].
  pose proof (pass_later _ _ P2) as [L0 L1 (Lo & Ln & _) _].
  assert (O0 : in_order (length (g_lines f0)) (g_blocks (s_0 st2))) by (eapply in_order_like; [exact L0|apply R0]).
  assert (O1 : in_order (length (g_lines f1)) (g_blocks (s_1 st2))) by (eapply in_order_like; [exact L1|apply R1]).
  destruct (analyze_other_spec _ _ _ _ _ O0 O1 H) as (A & B & (C1 & C2 & _) & D).
  assert (An : analysed f0 f1 st2 st') by (split; auto; rewrite C1, C2, Lo, Ln; now split).
  assert (Rn : forall n, rename_find (g_ren (s_1 st')) n = r1 st2 n) by (intros n; unfold r1; now rewrite (rs_ren _ _ _ B)).
  assert (In1 : forall b, b_type b <> BOther -> In b (g_blocks (s_1 st')) <-> In b (g_blocks (s_1 st2))) by (intros b T; now apply (an_in1 _ _ _ _ An)).
  assert (In0 : forall b, b_type b <> BOther -> In b (g_blocks (s_0 st')) <-> In b (g_blocks (s_0 st2))) by (intros b T; now apply (an_in0 _ _ _ _ An)).
  assert (Lb : forall b, labels_done st2 b -> suffixed_labels (rename_find (g_ren (s_1 st'))) (s_1 st') b).
  { intros b L i n X Nn. rewrite Rn. eapply L; eauto. eapply nth_label_lines; [|exact X]. apply (rs_lines _ _ _ B). }
  split.
  - intros b Ib T Ne P. apply In1 in Ib; [|congruence]. unfold gets_suffix. rewrite Rn. apply Vn; auto.
  - intros b s Ib T Ne P. apply In1 in Ib; [|congruence].
    destruct (i_back _ (p_inv _ _ P2) b s Ib P) as (c & J & S). destruct (final_named f0 f1 st2 st' An _ _ J) as (_ & To).
    destruct (b_type c) eqn:Tc; try contradiction.
    + exists c. destruct J as (J0 & J1 & J2). split; [split; [apply In0; congruence|split; [apply In1; [congruence|auto]|auto]]|auto].
    + destruct (Vo b s Ib Ne T P) as (b0 & I0 & T0 & P0 & X).
      { intros (d & Id & Td & Pd). destruct J as (J0 & _). assert (d = c) by (apply (uniq0 f0 f1 st2 st' An); auto; congruence). congruence. }
      exists b0. split; [split; [apply In0; congruence|split; [apply In1; [congruence|auto]|auto]]|]. right. split; auto. unfold gets_name_of. rewrite Rn. exact X.
    + destruct J as (J0 & J1 & J2). destruct (i_fwd _ (p_inv _ _ P2) c _ J0 J2) as (c1 & _ & Na & _). destruct Na as ([X|X] & _); congruence.
  - intros b Ib T P. apply In1 in Ib; [|congruence]. destruct (Fnew b Ib T P) as (X & Y & Z). split; [now apply Lb|]. unfold gets_suffix, keeps_name. rewrite Rn. auto.
  - intros b0 b1 J T0 T1. destruct (an_func a f0 f1 st2 st' R0 R1 An b0 b1 T0 J) as (J2 & _ & P & _). pose proof J2 as (I0 & I1 & P0).
    destruct (Fold b1 I1 T1) as (X & Y); [exists b0; auto|]. split.
    + intros Ig. destruct (X Ig) as (X1 & X2). split; [unfold gets_suffix; rewrite Rn; exact X1|apply Lb, X2; intros []].
    + intros Ig. destruct (Y Ig) as [(Q & Z)|(c & Ic & Tc & Pc & Z)].
      * left. split; [left; unfold asked in Q; now rewrite (rs_base _ _ _ B)|unfold keeps_name; now rewrite Rn].
      * right. assert (c = b0) as -> by (apply (uniq0 f0 f1 st2 st' An); auto; congruence). unfold gets_name_of. now rewrite Rn.
Qed.
(** Nothing else gets another name. *)
Theorem analyze_stands a o f0 f1 st' : ready a f0 -> ready a f1 -> analyze o (start f0 f1) = Ok st' ->
  (forall n d, rename_find (g_ren (s_1 st')) n = Some d -> stands_for1 st' n d).
Proof.
  intros R0 R1 H n d X. destruct (analyze_spec _ _ _ _ _ R0 R1 H) as (st & A). rewrite (rs_ren _ _ _ (an_1 _ _ _ _ A)) in X.
  apply (final_stands1 a f0 f1 st st' R0 R1 A). apply (i_tab1 _ (p_inv _ _ (an_pass _ _ _ _ A)) n d X).
Qed.
