(** The analysis as a whole, and the program. *)
From Coq Require Import String DecimalString Sorted.
From Verif Require Import Base BaseProofs StorageModel CliModel TextModel TextSpec TextProofs ParseModel ParseSpec ParseProofs RenameModel RenameSpec
  RenameProofs CmpModel CmpSpec DbgModel DbgProofs GenModel GenSpec GenFrame GenSteps GenOther GenLoad GenOut GenWrite GenWrite2 GenWrite3.
Open Scope list_scope.

Lemma cons_core c l' b l : map core (c :: l') = map core (b :: l) -> alike c b /\ map core l' = map core l.
Proof.
  cbn [map]. intros H. split; [exact (f_equal (hd (core b)) H)|exact (f_equal (@tl _) H)].
Qed.
Lemma in_order_core n : forall l l', map core l' = map core l -> in_order n l -> in_order n l'.
Proof.
  induction l as [|b l IH]; intros [|c l'] H (Q & F); try discriminate H; [split; constructor|].
  destruct (cons_core _ _ _ _ H) as (Eh & Et). inversion Q as [|? ? Q' Qb]; subst. inversion F as [|? ? Fb F']; subst.
  destruct (alike_fields c b Eh) as (E1 & E2 & _). destruct (IH l' Et) as (Q2 & F2); [now split|].
  split; constructor; auto; [|lia].
  clear - Qb Et E2. rewrite E2. revert l' Et. induction l as [|x l IH]; intros [|y l'] H; try discriminate H; constructor.
  - destruct (cons_core _ _ _ _ H) as (Eh & _). destruct (alike_fields y x Eh) as (-> & _). now inversion Qb.
  - inversion Qb. apply IH; auto. now destruct (cons_core _ _ _ _ H).
Qed.
Lemma in_order_like n f g : like f g -> in_order n (g_blocks f) -> in_order n (g_blocks g).
Proof. intros [H _ _ _]. now apply in_order_core. Qed.
Lemma in_filter_not_other f b : In b (filter (fun b => negb (other b)) (g_blocks f)) <-> In b (g_blocks f) /\ b_type b <> BOther.
Proof.
  rewrite filter_In. unfold other. split; intros (I & H); split; auto.
  - intros T. rewrite T in H. discriminate.
  - destruct (b_type b); auto.
Qed.
(** What is known after the analysis; [st] is the state before the other blocks were
    looked at. *)
Record analysed (f0 f1 : gfile) (st st' : gst) : Prop := {
  an_pass : pass (start f0 f1) st;
  an_0 : resplit (length (g_lines f0)) (s_0 st) (s_0 st'); an_1 : resplit (length (g_lines f1)) (s_1 st) (s_1 st');
  an_out : s_out st' = [] /\ s_nsyms st' = 0;
  an_others : exists u0 v0 u1 v1, others (s_0 st') = u0 ++ v0 /\ others (s_1 st') = u1 ++ v1 /\ Forall2 (linked st') u0 u1 /\ (v0 = [] \/ v1 = []) }.
Theorem analyze_spec a o f0 f1 st' : ready a f0 -> ready a f1 -> analyze o (start f0 f1) = Ok st' -> exists st, analysed f0 f1 st st'.
Proof.
  intros R0 R1 H. unfold analyze in H. bind H as st1 E1. bind H as st2 E2. destruct (start_inv _ _ _ R0 R1) as (I & N).
  destruct (analyze_var_pass _ _ _ I N E1) as (P1 & N1).
  pose proof (analyze_func_pass _ _ _ _ P1 (rd_names _ _ R0) (ready_func_names _ _ R0) N1 E2) as P2.
  pose proof (pass_later _ _ P2) as [L0 L1 (Lo & Ln & _) _].
  assert (O0 : in_order (length (g_lines f0)) (g_blocks (s_0 st2))) by (eapply in_order_like; [exact L0|apply R0]).
  assert (O1 : in_order (length (g_lines f1)) (g_blocks (s_1 st2))) by (eapply in_order_like; [exact L1|apply R1]).
  destruct (analyze_other_spec _ _ _ _ _ O0 O1 H) as (A & B & (C1 & C2 & _) & D). exists st2. split; auto.
  rewrite C1, C2, Lo, Ln. now split.
Qed.
Section Analysed.
  Variables (a : parch) (f0 f1 : gfile) (st st' : gst).
  Hypotheses (R0 : ready a f0) (R1 : ready a f1) (A : analysed f0 f1 st st').
  Lemma an_wf : wf st'.
  Proof. split; eapply in_order_starts; [apply (rs_order _ _ _ (an_0 _ _ _ _ A))|apply (rs_order _ _ _ (an_1 _ _ _ _ A))]. Qed.
  Lemma an_in0 b : b_type b <> BOther -> (In b (g_blocks (s_0 st')) <-> In b (g_blocks (s_0 st))).
  Proof.
    intros T. pose proof (rs_keep _ _ _ (an_0 _ _ _ _ A)) as K. split; intros I.
    - apply (in_filter_not_other (s_0 st)). rewrite <- K. now apply in_filter_not_other.
    - apply (in_filter_not_other (s_0 st')). rewrite K. now apply in_filter_not_other.
  Qed.
  Lemma an_in1 b : b_type b <> BOther -> (In b (g_blocks (s_1 st')) <-> In b (g_blocks (s_1 st))).
  Proof.
    intros T. pose proof (rs_keep _ _ _ (an_1 _ _ _ _ A)) as K. split; intros I.
    - apply (in_filter_not_other (s_1 st)). rewrite <- K. now apply in_filter_not_other.
    - apply (in_filter_not_other (s_1 st')). rewrite K. now apply in_filter_not_other.
  Qed.
  (** A function is joined with a block that is joined with it. *)
  Lemma an_func b0 b1 : b_type b0 = BFunc -> joined st' b0 b1 ->
    joined st b0 b1 /\ named_alike b0 b1 /\ b_pair b1 = Some (b_start b0) /\ b_type b1 <> BOther.
  Proof.
    intros T (I0 & I1 & P). assert (J0 : In b0 (g_blocks (s_0 st))) by (apply an_in0; [congruence|auto]).
    pose proof (p_inv _ _ (an_pass _ _ _ _ A)) as V. destruct (i_fwd _ V b0 _ J0 P) as (c1 & J & Nm & Bk).
    pose proof (pass_later _ _ (an_pass _ _ _ _ A)) as [L0 L1 _ _].
    destruct J as (_ & K1 & P'). assert (Tc : b_type c1 <> BOther).
    { intros To. destruct (like_in _ _ _ L1 K1) as (d1 & Kd & Ad). pose proof (rd_fresh _ _ R1) as Fr. rewrite Forall_forall in Fr.
      destruct (Fr d1 Kd) as (_ & _ & _ & _ & _ & Fo). destruct (alike_fields _ _ Ad) as (_ & _ & Q3 & _ & Q5 & Q6 & _).
      destruct Fo as (Fn & Fa); [congruence|].
      destruct (func_names_like _ _ L0 (ready_func_names _ _ R0) b0 J0 T).
      destruct Nm as (_ & [(_ & Q)|(_ & _ & Q)]); [unfold name; congruence|]. specialize (Q T). congruence. }
    assert (c1 = b1) as ->.
    { apply (nodup_start (g_blocks (s_1 st'))); auto; [apply an_wf|now apply an_in1|congruence]. }
    split; [now split|]. split; auto.
  Qed.
  Lemma an_writable : lines_ok f0 -> lines_ok f1 -> writable st'.
  Proof.
    intros O0 O1. pose proof (pass_later _ _ (an_pass _ _ _ _ A)) as [L0 L1 _ _]. split.
    - apply an_wf.
    - unfold lines_ok. rewrite (rs_lines _ _ _ (an_0 _ _ _ _ A)), (lk_lines _ _ L0). exact O0.
    - unfold lines_ok. rewrite (rs_lines _ _ _ (an_1 _ _ _ _ A)), (lk_lines _ _ L1). exact O1.
    - intros b I. destruct (rs_order _ _ _ (an_0 _ _ _ _ A)) as (_ & F). rewrite Forall_forall in F. specialize (F b I). lia.
    - intros b I. destruct (rs_order _ _ _ (an_1 _ _ _ _ A)) as (_ & F). rewrite Forall_forall in F. specialize (F b I). lia.
  Qed.
End Analysed.
Lemma file_lines_ok a buf tb i ms ls tb' f : load a buf tb i = Ok (ms, ls, tb') -> file_of a i ls = Ok f -> lines_ok f.
Proof.
  intros L H. apply load_good in L. unfold file_of in H. bind H as w Ew. injection H as <-. destruct w as [ls' bs].
  assert (N : Forall (fun x => ~ In 10 (l_text x)) ls) by (eapply Forall_impl; [|exact L]; intros x (Q & _); exact Q).
  destruct (cblocks_init_spec a ls ls' bs N Ew) as (_ & _ & K & _). unfold lines_ok. cbn [g_lines fst].
  clear - K N. induction K as [|x y l l' Kx K IH]; constructor; inversion N; subst; auto.
  destruct Kx as [->|(_ & E & _)]; [assumption|]. rewrite E. intros [].
Qed.
(** The files of a run *)
Record run_of (a : parch) (o : gopts) (buf : nat) (i0 i1 : input) (f0 f1 : gfile) (st' : gst) : Prop := {
  ru_0 : exists ms ls tb, load a buf predefined i0 = Ok (ms, ls, tb) /\ file_of a i0 ls = Ok f0
           /\ exists ms' ls' tb', load a buf tb i1 = Ok (ms', ls', tb') /\ file_of a i1 ls' = Ok f1;
  ru_an : analyze o (start f0 f1) = Ok st' }.
Theorem gensrc_spec a o buf i0 i1 out : gensrc a o buf i0 i1 = Ok out ->
  exists f0 f1 st', run_of a o buf i0 i1 f0 f1 st' /\ ready a f0 /\ ready a f1 /\ lines_ok f0 /\ lines_ok f1 /\ output_of o st' out.
Proof.
  unfold gensrc. intros H. bind H as l0 E0. bind H as l1 E1. bind H as f0 F0. bind H as f1 F1. bind H as st' Ea. bind H as w Ew.
  bind H as u Eu. bind H as v Ev. injection H as <-. destruct l0 as [[ms0 ls0] tb0], l1 as [[ms1 ls1] tb1]. cbn [fst snd] in *.
  pose proof (file_of_ready _ _ _ _ _ _ _ _ E0 F0) as R0. pose proof (file_of_ready _ _ _ _ _ _ _ _ E1 F1) as R1.
  pose proof (file_lines_ok _ _ _ _ _ _ _ _ E0 F0) as O0. pose proof (file_lines_ok _ _ _ _ _ _ _ _ E1 F1) as O1.
  destruct (analyze_spec _ _ _ _ _ R0 R1 Ea) as (st & A).
  exists f0, f1, st'. split; [split; auto; exists ms0, ls0, tb0; split; auto; split; auto; exists ms1, ls1, tb1; auto|].
  do 4 (split; auto). destruct (an_out _ _ _ _ A) as (Z1 & Z2).
  eapply write_cblocks_spec; eauto; [eapply an_writable; eauto|]. intros b0 b1 T J.
  now destruct (an_func a f0 f1 st st' R0 R1 A b0 b1 T J) as (_ & _ & Q & _).
Qed.
