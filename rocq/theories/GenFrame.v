(** What the analysis of two assembler files changes and what it leaves. *)
From Coq Require Import String.
From Verif Require Import Base BaseProofs StorageModel TextModel TextSpec TextProofs ParseModel ParseProofs RenameModel RenameSpec
  RenameProofs CmpModel CmpProofs GenModel GenSpec.
Open Scope list_scope.

(** ** Results and loops *)
Lemma rbind_ok {A B} (m : res A) (f : A -> res B) y : rbind m f = Ok y -> exists x, m = Ok x /\ f x = Ok y.
Proof. destruct m; cbn; intros H; try discriminate; eauto. Qed.
Ltac inv_do H := let x := fresh "x" in let E := fresh "E" in apply rbind_ok in H as (x & E & H).
Tactic Notation "bind" hyp(H) "as" ident(x) ident(E) := apply rbind_ok in H as (x & E & H).
Lemma rfold_inv {A S} (g : A -> S -> res S) (P : list A -> S -> Prop) :
  (forall x r s s', P (x :: r) s -> g x s = Ok s' -> P r s') ->
  forall l s s', P l s -> rfold g l s = Ok s' -> P [] s'.
Proof.
  intros K l. induction l as [|x r IH]; intros s s' P0 H; cbn [rfold] in H.
  - injection H as <-. exact P0.
  - inv_do H. eauto.
Qed.

(** ** Blocks *)
Definition core (b : cblock) := (b_start b, b_end b, b_name b, b_hname b, b_auto b, b_type b, b_globl b, b_adapted b).
Definition alike (b c : cblock) : Prop := core b = core c.
Lemma alike_fields b c : alike b c -> b_start b = b_start c /\ b_end b = b_end c /\ b_name b = b_name c
  /\ b_hname b = b_hname c /\ b_auto b = b_auto c /\ b_type b = b_type c /\ b_globl b = b_globl c /\ b_adapted b = b_adapted c.
Proof. intros H. injection H. intros. repeat split; assumption. Qed.
Record like (f g : gfile) : Prop := {
  lk_core : map core (g_blocks g) = map core (g_blocks f);
  lk_lines : g_lines g = g_lines f; lk_dir : g_dir g = g_dir f; lk_base : g_base g = g_base f }.
Lemma like_refl f : like f f.
Proof. split; auto. Qed.
Lemma like_trans f g h : like f g -> like g h -> like f h.
Proof. intros [] []. split; congruence. Qed.
Lemma like_starts f g : like f g -> starts_of g = starts_of f.
Proof.
  intros [H _ _ _]. unfold starts_of.
  assert (X : forall bs, map b_start bs = map (fun c => fst (fst (fst (fst (fst (fst (fst c))))))) (map core bs)).
  { intros bs. rewrite map_map. reflexivity. }
  now rewrite (X (g_blocks g)), (X (g_blocks f)), H.
Qed.
Lemma map_core_in (bs cs : list cblock) b : map core bs = map core cs -> In b bs -> exists c, In c cs /\ alike b c.
Proof.
  intros H I. assert (J : In (core b) (map core cs)) by (rewrite <- H; now apply in_map).
  apply in_map_iff in J as (c & E & J). exists c. split; auto. now symmetry.
Qed.
Lemma like_in f g b : like f g -> In b (g_blocks g) -> exists c, In c (g_blocks f) /\ alike b c.
Proof. intros [H _ _ _]. now apply map_core_in. Qed.
Lemma like_in_r f g b : like f g -> In b (g_blocks f) -> exists c, In c (g_blocks g) /\ alike b c.
Proof. intros [H _ _ _]. now apply map_core_in. Qed.
Lemma like_blines f g b c : like f g -> alike b c -> blines g b = blines f c.
Proof. intros [_ L _ _] A. apply alike_fields in A as (S & E & _). unfold blines. now rewrite L, S, E. Qed.

Lemma getb_in f s b : getb f s = Some b -> In b (g_blocks f) /\ b_start b = s.
Proof. intros H. apply find_some in H as (I & E). split; auto. now apply Nat.eqb_eq. Qed.
Lemma nodup_start (bs : list cblock) b c : NoDup (map b_start bs) -> In b bs -> In c bs -> b_start b = b_start c -> b = c.
Proof.
  induction bs as [|x bs IH]; cbn [map]; intros N Ib Ic E; [destruct Ib|].
  inversion N as [|? ? Nx N']; subst. destruct Ib as [->|Ib], Ic as [->|Ic]; auto.
  - exfalso. apply Nx. rewrite E. now apply in_map.
  - exfalso. apply Nx. rewrite <- E. now apply in_map.
Qed.
Lemma getb_of f b : NoDup (starts_of f) -> In b (g_blocks f) -> getb f (b_start b) = Some b.
Proof.
  intros N I. unfold getb. destruct (find _ (g_blocks f)) as [c|] eqn:E.
  - apply find_some in E as (J & E). apply Nat.eqb_eq in E. f_equal. now apply (nodup_start (g_blocks f)).
  - apply (find_none _ _ E) in I. now rewrite Nat.eqb_refl in I.
Qed.
Definition keeps (g : cblock -> cblock) : Prop := forall b, alike (g b) b.
Lemma keeps_pair p : keeps (set_pair p). Proof. intros b. reflexivity. Qed.
Lemma keeps_handled : keeps set_handled. Proof. intros b. reflexivity. Qed.
Lemma keeps_ignore : keeps set_ignore. Proof. intros b. reflexivity. Qed.
Lemma keeps_unlink : keeps set_unlink. Proof. intros b. reflexivity. Qed.
Lemma updb_like s g f : keeps g -> like f (updb s g f).
Proof.
  intros K. split; auto. cbn [updb with_blocks g_blocks]. rewrite map_map. apply map_ext. intros b.
  destruct (Nat.eqb (b_start b) s); auto. apply K.
Qed.
Lemma updb_in s g f b : In b (g_blocks (updb s g f)) <->
  exists c, In c (g_blocks f) /\ b = if Nat.eqb (b_start c) s then g c else c.
Proof.
  cbn [updb with_blocks g_blocks]. rewrite in_map_iff. split; intros (c & A & B); exists c; auto.
Qed.
Lemma with_ren_like f r : like f (with_ren f r).
Proof. now split. Qed.

(** ** Labels *)
Definition label_name (x : line) : text := txt (fst (get_token (Some (l_text x)))).
Lemma label_tokens x : exists ts, has_tokens (l_text x) (label_name x :: ts).
Proof.
  unfold label_name. destruct (get_token (Some (l_text x))) as [t s] eqn:E. cbn [fst].
  assert (X : exists ts, toks s ts). { destruct s as [s|]; [apply toks_exist|]. exists []. constructor. }
  destruct X as (ts & T). exists ts. apply has_tokens_toks. econstructor; eauto.
Qed.
Lemma labels_split : forall ls i x, nth_error (labels ls) i = Some x ->
  exists u v, ls = u ++ x :: v /\ l_type x = DLabel /\ length (filter (fun y => dir_beq (l_type y) DLabel) u) = i.
Proof.
  unfold labels. induction ls as [|y ls IH]; intros i x H; [destruct i; discriminate|].
  cbn [filter] in H. destruct (dir_beq (l_type y) DLabel) eqn:D.
  - destruct i as [|i]; cbn [nth_error] in H.
    + injection H as ->. exists [], ls. repeat split; auto. now apply dir_beq_eq.
    + apply IH in H as (u & v & -> & T & L). exists (y :: u), v. repeat split; auto. cbn [filter]. rewrite D. cbn. now rewrite L.
  - apply IH in H as (u & v & -> & T & L). exists (y :: u), v. repeat split; auto. cbn [filter]. now rewrite D.
Qed.
Lemma nth_label_of f b i x : nth_error (labels (blines f b)) i = Some x -> nth_label f b i (label_name x).
Proof.
  intros H. apply labels_split in H as (u & v & E & T & L). exists u, x, v. repeat split; auto. apply label_tokens.
Qed.
Lemma nth_label_alike f g b c i n : like f g -> alike b c -> (nth_label g b i n <-> nth_label f c i n).
Proof. intros L A. unfold nth_label. now rewrite (like_blines f g b c L A). Qed.

(** ** The steps of the analysis *)
Record wf (st : gst) : Prop := { wf_0 : NoDup (starts_of (s_0 st)); wf_1 : NoDup (starts_of (s_1 st)) }.
Inductive step (st : gst) : gst -> Prop :=
| st_join : forall b0 b1, In b0 (g_blocks (s_0 st)) -> In b1 (g_blocks (s_1 st)) -> b_pair b0 = None ->
    named_alike b0 b1 ->
    (forall b, In b (g_blocks (s_0 st)) -> b_type b = BFunc -> b_pair b <> Some (b_start b1)) ->
    step st (join (b_start b0) (b_start b1) st)
| st_ren0 : forall r,
    (forall n d, rename_find r n = Some d -> rename_find (g_ren (s_0 st)) n = Some d \/ stands_for0 st n d) ->
    step st (with_0 st (with_ren (s_0 st) r))
| st_ren1 : forall r,
    (forall n d, rename_find r n = Some d -> rename_find (g_ren (s_1 st)) n = Some d \/ stands_for1 st n d) ->
    step st (with_1 st (with_ren (s_1 st) r))
| st_ignore : forall b1, In b1 (g_blocks (s_1 st)) -> step st (upd1 (b_start b1) set_ignore st)
| st_unlink : forall b1, In b1 (g_blocks (s_1 st)) -> step st (upd1 (b_start b1) set_unlink st).
Inductive steps : gst -> gst -> Prop :=
| ss_refl : forall st, steps st st
| ss_step : forall st st' st'', steps st st' -> step st' st'' -> steps st st''.
Lemma steps_trans a b c : steps a b -> steps b c -> steps a c.
Proof. intros H1 H2. induction H2 as [|x y z H2 IH S]; auto. econstructor; [exact (IH H1)|exact S]. Qed.
Lemma steps_one a b : step a b -> steps a b.
Proof. intros H. econstructor; [constructor|exact H]. Qed.

(** A later state: the same blocks, those of the first file joined stay joined. *)
Record later (st st' : gst) : Prop := {
  la_0 : like (s_0 st) (s_0 st'); la_1 : like (s_1 st) (s_1 st');
  la_out : s_out st' = s_out st /\ s_nsyms st' = s_nsyms st /\ s_data st' = s_data st;
  la_pair : forall b0, In b0 (g_blocks (s_0 st)) -> exists c0, In c0 (g_blocks (s_0 st')) /\ alike c0 b0
              /\ (forall p, b_pair b0 = Some p -> b_pair c0 = Some p) }.
Lemma later_refl st : later st st.
Proof. split; auto using like_refl. intros b0 I. exists b0. split; auto. split; [reflexivity|auto]. Qed.
Lemma later_trans a b c : later a b -> later b c -> later a c.
Proof.
  intros [A0 A1 (A2 & A3 & A4) A5] [B0 B1 (B2 & B3 & B4) B5]. split; eauto using like_trans.
  - repeat split; congruence.
  - intros b0 I. destruct (A5 b0 I) as (c0 & I' & E & H). destruct (B5 c0 I') as (d0 & I'' & E' & H').
    exists d0. split; auto. split; [congruence|auto].
Qed.
Lemma later_wf st st' : wf st -> later st st' -> wf st'.
Proof. intros [W0 W1] [L0 L1 _ _]. split; [now rewrite (like_starts _ _ L0)|now rewrite (like_starts _ _ L1)]. Qed.
Lemma step_later st st' : wf st -> step st st' -> later st st'.
Proof.
  intros [W0 W1] [b0 b1 I0 I1 Np _ _|r _|r _|b1 I1|b1 I1]; (split; [| |repeat split|]);
    try apply like_refl; try apply with_ren_like; try (apply updb_like; solve [apply keeps_pair|apply keeps_ignore|apply keeps_unlink]);
    try (intros c0 I; exists c0; split; [exact I|]; split; [reflexivity|auto]).
  intros c0 I. cbn [join upd0 upd1 s_0 s_1 with_0 with_1].
  exists (if Nat.eqb (b_start c0) (b_start b0) then set_pair (b_start b1) c0 else c0). split; [apply updb_in; eauto|].
  split; [destruct (Nat.eqb _ _); reflexivity|].
  intros p E. destruct (Nat.eqb (b_start c0) (b_start b0)) eqn:S; auto. apply Nat.eqb_eq in S.
  apply (nodup_start (g_blocks (s_0 st))) in S; auto. congruence.
Qed.
Lemma steps_later st st' : wf st -> steps st st' -> later st st'.
Proof.
  intros W H. induction H as [st|st st' st'' H IH S]; [apply later_refl|].
  eapply later_trans; [exact (IH W)|]. apply step_later; auto. eapply later_wf; eauto.
Qed.
Lemma joined_later st st' b0 b1 : later st st' -> joined st b0 b1 ->
  exists c0 c1, joined st' c0 c1 /\ alike c0 b0 /\ alike c1 b1.
Proof.
  intros [L0 L1 _ P] (I0 & I1 & E). destruct (P b0 I0) as (c0 & J0 & A0 & Q).
  destruct (like_in_r _ _ _ L1 I1) as (c1 & J1 & A1). exists c0, c1. unfold joined. split; [|auto].
  split; auto. split; auto. rewrite (Q _ E). f_equal. now apply alike_fields in A1.
  split; auto. now symmetry.
Qed.
Lemma stands_for0_later st st' n d : later st st' -> stands_for0 st n d -> stands_for0 st' n d.
Proof.
  intros L (b0 & b1 & J & H). destruct (joined_later _ _ _ _ L J) as (c0 & c1 & J' & A0 & A1). exists c0, c1. split; auto.
  destruct (alike_fields _ _ A0) as (_ & _ & N0 & _ & _ & T0 & _), (alike_fields _ _ A1) as (_ & _ & N1 & _).
  rewrite N0, N1, T0. destruct H as [H|(T & i & H0 & H1)]; [left; exact H|right]. split; auto. exists i.
  destruct L as [L0 L1 _ _]. rewrite (nth_label_alike _ _ _ _ i n L0 A0), (nth_label_alike _ _ _ _ i d L1 A1). auto.
Qed.
Lemma stands_for1_later st st' n d : later st st' -> stands_for1 st n d -> stands_for1 st' n d.
Proof.
  intros L [(b0 & b1 & J & H)|(E & b1 & I1 & H)].
  - left. destruct (joined_later _ _ _ _ L J) as (c0 & c1 & J' & A0 & A1). exists c0, c1. split; auto.
    destruct (alike_fields _ _ A0) as (_ & _ & N0 & _), (alike_fields _ _ A1) as (_ & _ & N1 & _). now rewrite N0, N1.
  - right. split; auto. destruct L as [L0 L1 _ _]. destruct (like_in_r _ _ _ L1 I1) as (c1 & J1 & A1). symmetry in A1. exists c1. split; auto.
    destruct (alike_fields _ _ A1) as (_ & _ & N1 & _ & _ & T1 & _). rewrite N1, T1.
    destruct H as [H|(T & i & H)]; [left; exact H|right; split; auto]. exists i. now rewrite (nth_label_alike _ _ _ _ i n L1 A1).
Qed.

(** ** What holds in every state of the analysis *)
Record inv (st : gst) : Prop := {
  i_wf : wf st;
  i_back : forall b1 s0, In b1 (g_blocks (s_1 st)) -> b_pair b1 = Some s0 ->
             exists b0, joined st b0 b1 /\ b_start b0 = s0;
  i_fwd : forall b0 s1, In b0 (g_blocks (s_0 st)) -> b_pair b0 = Some s1 ->
             exists b1, joined st b0 b1 /\ named_alike b0 b1 /\ (b_type b0 = BFunc -> b_pair b1 = Some (b_start b0));
  i_tab0 : forall n d, rename_find (g_ren (s_0 st)) n = Some d -> stands_for0 st n d;
  i_tab1 : forall n d, rename_find (g_ren (s_1 st)) n = Some d -> stands_for1 st n d }.
Lemma named_alike_alike b0 b1 c0 c1 : alike c0 b0 -> alike c1 b1 -> named_alike b0 b1 -> named_alike c0 c1.
Proof.
  intros A0 A1. destruct (alike_fields _ _ A0) as (_ & _ & N0 & H0 & U0 & T0 & _), (alike_fields _ _ A1) as (_ & _ & N1 & H1 & U1 & _).
  unfold named_alike. now rewrite N0, H0, U0, T0, N1, H1, U1.
Qed.
Lemma step_inv st st' : inv st -> step st st' -> inv st'.
Proof.
  intros [W B F T0 T1] S. pose proof (step_later _ _ W S) as L. pose proof (later_wf _ _ W L) as W'.
  assert (Told0 : forall n d, rename_find (g_ren (s_0 st)) n = Some d -> stands_for0 st' n d)
    by (intros; eapply stands_for0_later; eauto).
  assert (Told1 : forall n d, rename_find (g_ren (s_1 st)) n = Some d -> stands_for1 st' n d)
    by (intros; eapply stands_for1_later; eauto).
  (* a change of s_1 that leaves names and pairs *)
  assert (Flag : forall s g, keeps g -> (forall b, b_pair (g b) = b_pair b) -> st' = upd1 s g st ->
                 (forall b1 s0, In b1 (g_blocks (s_1 st')) -> b_pair b1 = Some s0 -> exists b0, joined st' b0 b1 /\ b_start b0 = s0)
                 /\ (forall b0 s1, In b0 (g_blocks (s_0 st')) -> b_pair b0 = Some s1 ->
                       exists b1, joined st' b0 b1 /\ named_alike b0 b1 /\ (b_type b0 = BFunc -> b_pair b1 = Some (b_start b0)))).
  { intros s g K Kp ->. split.
    - intros b1 s0 I E. pose proof I as I'. apply updb_in in I' as (c1 & I1 & ->).
      assert (Ec : b_pair c1 = Some s0) by (destruct (Nat.eqb _ _); rewrite ?Kp in E; exact E).
      destruct (B c1 s0 I1 Ec) as (b0 & (J0 & J1 & J2) & Es). exists b0. split; auto. split; auto. split; auto.
      rewrite J2. f_equal. destruct (Nat.eqb (b_start c1) s); auto. symmetry. apply (alike_fields _ _ (K c1)).
    - intros b0 s1 I E. destruct (F b0 s1 I E) as (b1 & (J0 & J1 & J2) & A & Hp).
      exists (if Nat.eqb (b_start b1) s then g b1 else b1).
      assert (Ka : alike (if Nat.eqb (b_start b1) s then g b1 else b1) b1) by (destruct (Nat.eqb _ _); [apply K|reflexivity]).
      split; [|split].
      + split; auto. split; [apply updb_in; eauto|]. rewrite J2. f_equal. symmetry. apply (alike_fields _ _ Ka).
      + eapply named_alike_alike; [reflexivity|exact Ka|exact A].
      + intros Tf. destruct (Nat.eqb _ _); rewrite ?Kp; auto. }
  destruct S as [b0 b1 I0 I1 Np A No|r H|r H|b1 I1|b1 I1]; split; auto.
  - (* join: back *)
    intros c1 s0 I E. cbn [join upd0 upd1 s_0 s_1 with_0 with_1] in I. apply updb_in in I as (d1 & I & ->).
    destruct (Nat.eqb (b_start d1) (b_start b1)) eqn:S.
    + apply Nat.eqb_eq in S. apply (nodup_start (g_blocks (s_1 st))) in S; auto; [|apply W]. subst d1.
      cbn [b_pair set_pair] in E. injection E as <-. exists (set_pair (b_start b1) b0). split; auto.
      split; [|split].
      * apply updb_in. exists b0. now rewrite Nat.eqb_refl.
      * cbn [join upd0 upd1 s_0 s_1 with_0 with_1]. apply updb_in. exists b1. now rewrite Nat.eqb_refl.
      * reflexivity.
    + destruct (B d1 s0 I E) as (c0 & (J0 & J1 & J2) & Es). subst s0. exists c0. split; auto. split; [|split; auto].
      * apply updb_in. exists c0. split; auto. destruct (Nat.eqb (b_start c0) (b_start b0)) eqn:S0; auto.
        apply Nat.eqb_eq in S0. apply (nodup_start (g_blocks (s_0 st))) in S0; auto; [|apply W]. congruence.
      * cbn [join upd0 upd1 s_0 s_1 with_0 with_1]. apply updb_in. exists d1. now rewrite S.
  - (* join: forward *)
    intros c0 s1 I E. cbn [join upd0 upd1 s_0 s_1 with_0 with_1] in I. apply updb_in in I as (d0 & I & ->).
    destruct (Nat.eqb (b_start d0) (b_start b0)) eqn:S.
    + apply Nat.eqb_eq in S. apply (nodup_start (g_blocks (s_0 st))) in S; auto; [|apply W]. subst d0.
      cbn [b_pair set_pair] in E. injection E as <-. exists (set_pair (b_start b0) b1). split; [|split].
      * split; [|split].
        -- apply updb_in. exists b0. now rewrite Nat.eqb_refl.
        -- cbn [join upd0 upd1 s_0 s_1 with_0 with_1]. apply updb_in. exists b1. now rewrite Nat.eqb_refl.
        -- reflexivity.
      * eapply named_alike_alike; [reflexivity|reflexivity|exact A].
      * reflexivity.
    + destruct (F d0 s1 I E) as (c1 & (J0 & J1 & J2) & A' & Hp).
      exists (if Nat.eqb (b_start c1) (b_start b1) then set_pair (b_start b0) c1 else c1). split; [|split].
      * split; [|split].
        -- apply updb_in. exists d0. now rewrite S.
        -- cbn [join upd0 upd1 s_0 s_1 with_0 with_1]. apply updb_in. exists c1. auto.
        -- rewrite J2. destruct (Nat.eqb (b_start c1) _); reflexivity.
      * eapply named_alike_alike; [reflexivity| |exact A']. destruct (Nat.eqb (b_start c1) _); reflexivity.
      * intros Tf. destruct (Nat.eqb (b_start c1) (b_start b1)) eqn:S1; auto. exfalso.
        apply Nat.eqb_eq in S1. apply (No d0 I Tf). rewrite J2. now f_equal.
  - intros n d E. destruct (H n d E) as [E'|E']; eauto using stands_for0_later.
  - intros n d E. destruct (H n d E) as [E'|E']; eauto using stands_for1_later.
  - eapply Flag; [apply keeps_ignore|reflexivity|reflexivity].
  - eapply Flag; [apply keeps_ignore|reflexivity|reflexivity].
  - eapply Flag; [apply keeps_unlink|reflexivity|reflexivity].
  - eapply Flag; [apply keeps_unlink|reflexivity|reflexivity].
Qed.
Lemma steps_inv st st' : inv st -> steps st st' -> inv st'.
Proof. intros I H. induction H as [|x y z H IH S]; auto. eapply step_inv; [exact (IH I)|exact S]. Qed.
