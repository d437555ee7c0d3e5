(** Writing the generated file: all its parts. *)
From Coq Require Import String DecimalString Sorted.
From Verif Require Import Base BaseProofs StorageModel CliModel TextModel TextSpec TextProofs ParseModel ParseSpec ParseProofs RenameModel RenameSpec
  RenameProofs CmpModel DbgModel DbgProofs GenModel GenSpec GenFrame GenSteps GenOther GenOut GenWrite GenWrite2.
Open Scope list_scope.

Lemma parts_map (P Q : cblock -> Z -> Z -> text -> Prop) : forall bs cs n n' p, map unh bs = map unh cs ->
  (forall b c k k' t, In b bs -> In c cs -> unh b = unh c -> P b k k' t -> Q c k k' t) -> parts P bs n n' p -> parts Q cs n n' p.
Proof.
  induction bs as [|b bs IH]; intros [|c cs] n n' p E H R; try discriminate E; inversion R; subst; [constructor|].
  cbn [map] in E. injection E as E1 E2.
  assert (U : unh b = unh c) by (unfold unh, core; congruence).
  econstructor; [eapply H; eauto; now left|]. apply IH; auto. intros. eapply H; eauto; now right.
Qed.

(** ** Tables *)
Lemma add_mono r s d r' n e : rename_add r s d = Ok r' -> rename_find r n = Some e -> rename_find r' n = Some e.
Proof.
  unfold rename_add. intros H E. destruct (same s d); [congruence|]. destruct (rename_find r s) as [d'|] eqn:F.
  - destruct (same d' d); congruence.
  - injection H as <-. rewrite find_cons. destruct (same s n) eqn:S; auto. apply same_spec in S. congruence.
Qed.
Lemma add_found r s d r' : rename_add r s d = Ok r' -> s <> d -> rename_find r' s = Some d.
Proof.
  unfold rename_add. intros H N. destruct (same s d) eqn:S; [apply same_spec in S; congruence|].
  destruct (rename_find r s) as [d'|] eqn:F.
  - destruct (same d' d) eqn:S'; [|discriminate]. apply same_spec in S'. congruence.
  - injection H as <-. rewrite find_cons. now rewrite same_refl.
Qed.
Lemma suffixed_differs n : n <> suffixed n.
Proof. unfold suffixed. intros H. assert (L : length n = length (n ++ str ".kpatch" ++ [0])) by (f_equal; exact H). rewrite !app_length in L. cbn in L. lia. Qed.
Lemma new_labels_spec nm : forall ls r r', new_labels nm r ls = Ok r' ->
  (forall n e, rename_find r n = Some e -> rename_find r' n = Some e)
  /\ (forall x, In x ls -> label_name x = nm \/ rename_find r' (label_name x) = Some (suffixed (label_name x))).
Proof.
  induction ls as [|x ls IH]; intros r r' H; cbn [new_labels] in H.
  - injection H as <-. split; auto. intros x [].
  - destruct (get_token (Some (l_text x))) as [t s] eqn:G.
    assert (Ln : label_name x = txt t) by (unfold label_name; now rewrite G).
    destruct s as [[|c s]|]; try discriminate.
    assert (K : forall (X : res rtab), match c with 58 => X | _ => Fatal end = Ok r' -> X = Ok r').
    { intros X K. destruct c as [|q|q]; try discriminate K. repeat (destruct q as [q|q|]; try discriminate K). exact K. }
    apply K in H. clear K. destruct (same (txt t) nm) eqn:S.
    + apply IH in H as (A & B). split; auto. intros y [<-|I]; auto. left. apply same_spec in S. congruence.
    + bind H as r1 E1. apply IH in H as (A & B). split.
      * intros n e En. apply A. eapply add_mono; eauto.
      * intros y [<-|I]; auto. right. rewrite Ln. apply A. eapply add_found; eauto. apply suffixed_differs.
Qed.
Lemma label_in f b i n : nth_label f b i n -> exists x, In x (labels (blines f b)) /\ label_name x = n.
Proof.
  intros (u & x & v & E & T & _ & ts & Ht). exists x. split.
  - unfold labels. rewrite E. apply filter_In. split; [apply in_or_app; right; now left|]. rewrite T. reflexivity.
  - destruct (label_tokens x) as (ts' & Ht'). rewrite has_tokens_toks in *. pose proof (toks_det _ _ Ht _ Ht') as Q. now injection Q.
Qed.

(** ** The functions to be unlinked *)
Record renamed1 (st st' : gst) : Prop := {
  r1_0 : s_0 st' = s_0 st; r1_blocks : g_blocks (s_1 st') = g_blocks (s_1 st); r1_lines : g_lines (s_1 st') = g_lines (s_1 st);
  r1_out : s_out st' = s_out st; r1_n : s_nsyms st' = s_nsyms st }.
Lemma rename_unlinked_spec b1 st st' : In b1 (g_blocks (s_1 st)) -> rename_unlinked b1 st = Ok st' -> renamed1 st st'
  /\ (forall n d, rename_find (g_ren (s_1 st)) n = Some d -> rename_find (g_ren (s_1 st')) n = Some d)
  /\ (forall n d, rename_find (g_ren (s_1 st')) n = Some d -> rename_find (g_ren (s_1 st)) n = Some d
        \/ (d = suffixed n /\ b_type b1 = BFunc /\ b_unlink b1 = true /\ (n = txt (b_name b1) \/ exists i, nth_label (s_1 st) b1 i n)))
  /\ (b_type b1 = BFunc -> b_unlink b1 = true -> rename_find (g_ren (s_1 st')) (txt (b_name b1)) = Some (suffixed (txt (b_name b1)))
        /\ forall i n, nth_label (s_1 st) b1 i n -> n = txt (b_name b1) \/ rename_find (g_ren (s_1 st')) n = Some (suffixed n)).
Proof.
  unfold rename_unlinked. intros I H. destruct (btype_beq (b_type b1) BFunc && b_unlink b1) eqn:C.
  - apply andb_true_iff in C as (T & U). apply btype_beq_eq in T. bind H as s1 E1. unfold make_new_labels in E1. bind E1 as r Er.
    injection E1 as <-. unfold new_name1, ren1 in H. bind H as r' Er'. injection H as <-. cbn [with_1 s_1 with_ren g_ren] in *.
    destruct (new_labels_spec _ _ _ _ Er) as (A & B). split; [split; reflexivity|]. split; [|split].
    + intros n d E. eapply add_mono; eauto.
    + intros n d E. destruct (add_find _ _ _ _ Er' n d E) as [E'|(-> & ->)].
      * pose proof (new_labels_find _ _ _ _ Er n d E') as Q. destruct Q as [Q|Q]; [now left|]. right. destruct Q as (-> & _ & i & x & J & ->).
        split; auto. split; auto. split; auto. right. exists i. now apply nth_label_of.
      * right. split; [reflexivity|]. split; auto.
    + intros _ _. split; [eapply add_found; eauto; apply suffixed_differs|]. intros i n L. apply label_in in L as (x & J & <-).
      destruct (B x J) as [Q|Q]; [now left|right]. eapply add_mono; eauto.
  - injection H as <-. split; [split; reflexivity|]. split; auto. split; auto. intros T U. rewrite T, U in C. discriminate.
Qed.
Lemma rename_unlinked_pass st st' : wf st -> each1 rename_unlinked st = Ok st' ->
  renamed1 st st' /\ unlinked_names st (rename_find (g_ren (s_1 st'))).
Proof.
  intros W H. unfold each1 in H.
  assert (X : forall cs bs s s', g_blocks (s_1 st) = cs ++ bs -> renamed1 st s ->
    (forall n d, rename_find (g_ren (s_1 st)) n = Some d -> rename_find (g_ren (s_1 s)) n = Some d) ->
    (forall n d, rename_find (g_ren (s_1 s)) n = Some d -> rename_find (g_ren (s_1 st)) n = Some d
        \/ (d = suffixed n /\ exists b1, (In b1 (g_blocks (s_1 st)) /\ b_type b1 = BFunc /\ b_unlink b1 = true)
                 /\ (n = txt (b_name b1) \/ exists i, nth_label (s_1 st) b1 i n))) ->
    (forall b1, In b1 cs -> b_type b1 = BFunc -> b_unlink b1 = true ->
       rename_find (g_ren (s_1 s)) (txt (b_name b1)) = Some (suffixed (txt (b_name b1)))
        /\ forall i n, nth_label (s_1 st) b1 i n -> n = txt (b_name b1) \/ rename_find (g_ren (s_1 s)) n = Some (suffixed n)) ->
    rfold (fun k s => match getb (s_1 s) k with Some b => rename_unlinked b s | None => Ok s end) (map b_start bs) s = Ok s' ->
    renamed1 st s' /\ unlinked_names st (rename_find (g_ren (s_1 s')))).
  { intros cs bs. revert cs. induction bs as [|b bs IH]; intros cs s s' E R M1 M2 M3 F; cbn [map rfold] in F.
    - injection F as <-. split; auto. split; auto. split; auto. rewrite app_nil_r in E. intros b1 (I & T & U). rewrite E in I. auto.
    - bind F as s1 E1. assert (I : In b (g_blocks (s_1 st))) by (rewrite E; apply in_or_app; right; now left).
      assert (I' : In b (g_blocks (s_1 s))) by now rewrite (r1_blocks _ _ R).
      assert (G : getb (s_1 s) (b_start b) = Some b).
      { apply getb_of; auto. unfold starts_of. rewrite (r1_blocks _ _ R). apply W. }
      rewrite G in E1. destruct (rename_unlinked_spec _ _ _ I' E1) as (R1 & N1 & N2 & N3).
      assert (L : forall i n c, nth_label (s_1 s) c i n <-> nth_label (s_1 st) c i n).
      { intros i n c. unfold nth_label, blines. now rewrite (r1_lines _ _ R). }
      apply (IH (cs ++ [b]) s1); auto.
      + now rewrite <- app_assoc.
      + destruct R, R1. split; congruence.
      + intros n d Q. destruct (N2 n d Q) as [Q'|(-> & T & U & Q')]; auto. right. split; auto. exists b. split; auto.
        destruct Q' as [Q'|(i & Q')]; [now left|right]. exists i. now apply L.
      + intros b1 J T U. apply in_app_or in J as [J|[->|[]]].
        * destruct (M3 b1 J T U) as (Q1 & Q2). split; auto. intros i n Q. destruct (Q2 i n Q); auto.
        * destruct (N3 T U) as (Q1 & Q2). split; auto. intros i n Q. apply (Q2 i n). now apply L. }
  apply (X [] (g_blocks (s_1 st)) st st'); auto; [split; reflexivity|intros b1 []].
Qed.

(** ** The passes *)
Lemma write_original_spec o b0 st st' : writable st -> (forall b0 b1, b_type b0 = BFunc -> joined st b0 b1 -> b_pair b1 = Some (b_start b0)) ->
  In b0 (g_blocks (s_0 st)) -> write_original o b0 st = Ok st' -> exists p n', writes st st' n' p /\ original_part o st b0 (s_nsyms st) n' p.
Proof.
  intros W Bk I H. unfold write_original in H. destruct (b_type b0) eqn:T.
  - eapply write_func_spec; eauto.
  - eapply write_var_spec; eauto.
  - injection H as <-. exists [], (s_nsyms st). split; [|unfold original_part; now rewrite T]. apply writes_emits, emits_refl.
  - injection H as <-. exists [], (s_nsyms st). split; [|unfold original_part; now rewrite T]. apply writes_emits, emits_refl.
Qed.
Lemma write_new_spec o b1 st st' : writable st -> In b1 (g_blocks (s_1 st)) -> write_new o b1 st = Ok st' ->
  exists p n', writes st st' n' p /\ new_part o st b1 (s_nsyms st) n' p.
Proof.
  intros W I H. unfold write_new in H. unfold new_part. destruct (b_pair b1) as [s0|] eqn:P.
  { injection H as <-. exists [], (s_nsyms st). split; [apply writes_emits, emits_refl|auto]. }
  destruct (b_type b1) eqn:T.
  - destruct (write_new_function_spec o b1 (emit (str "#---------- new func ---------" ++ lf) st) st') as (c & orig & Wc & Fc & Oc); auto.
    { eapply writable_same; [|exact W]. split; apply fsame_refl. }
    rewrite P in Oc. subst orig. exists (remark "new func ---------" ++ c), (s_nsyms st + 1). split.
    + eapply writes_trans; [|exact Wc]. apply writes_emits.
      replace (remark "new func ---------") with (str "#---------- new func ---------" ++ lf) by reflexivity. apply emits_emit.
    + exists c. split; auto.
  - destruct (cblock_gen_spec o false b1 st st' W I H) as (p & Wp & Rp). exists p, (s_nsyms st). auto.
  - injection H as <-. exists [], (s_nsyms st). split; [apply writes_emits, emits_refl|auto].
  - injection H as <-. exists [], (s_nsyms st). split; [apply writes_emits, emits_refl|auto].
Qed.
Lemma write_unlinked_spec o b1 st st' : writable st -> In b1 (g_blocks (s_1 st)) -> write_unlinked o b1 st = Ok st' ->
  exists p n', writes st st' n' p /\ unlinked_part o st (rename_find (g_ren (s_1 st))) b1 (s_nsyms st) n' p.
Proof.
  intros W I H. unfold write_unlinked in H. unfold unlinked_part. destruct (b_unlink b1) eqn:U.
  2:{ rewrite andb_false_r in H. injection H as <-. exists [], (s_nsyms st). split; [apply writes_emits, emits_refl|auto]. }
  rewrite andb_true_r in H. destruct (b_type b1) eqn:T; cbn [btype_beq] in H;
    try (injection H as <-; exists [], (s_nsyms st); split; [apply writes_emits, emits_refl|auto]; fail).
  destruct (write_new_function_spec o b1 (emit (str "#---------- unlinked func ---------" ++ lf) st) st') as (c & orig & Wc & Fc & Oc); auto.
  { eapply writable_same; [|exact W]. split; apply fsame_refl. }
  assert (orig = None) as -> by (destruct (b_pair b1); [rewrite U in Oc|]; exact Oc).
  exists (remark "unlinked func ---------" ++ c), (s_nsyms st + 1). split.
  - eapply writes_trans; [|exact Wc]. apply writes_emits.
    replace (remark "unlinked func ---------") with (str "#---------- unlinked func ---------" ++ lf) by reflexivity. apply emits_emit.
  - exists c. split; auto.
Qed.
Lemma write_other_spec b1 st st' : writable st -> In b1 (g_blocks (s_1 st)) -> write_other b1 st = Ok st' ->
  exists p, writes st st' (s_nsyms st) p /\ printed eq (follower (s_1 st) b1) (blines (s_1 st) b1) p.
Proof.
  intros W I H. unfold write_other in H. bind H as t Et. injection H as <-.
  apply cblock_text_printed in Et; [|apply W|now apply (wr_size1 _ W)]. exists t. split; auto. split.
  - eapply wsame_trans; [|destruct (b_pair b1); [apply wsame_upd0|apply wsame_refl]].
    eapply wsame_trans; [|apply wsame_upd1]. split; apply fsame_refl.
  - destruct (b_pair b1); reflexivity.
  - destruct (b_pair b1); reflexivity.
Qed.
Lemma write_header_spec st st' : writable st -> write_header st = Ok st' -> exists h, writes st st' (s_nsyms st) h /\ header_part st h.
Proof.
  intros W H. unfold write_header in H. unfold header_part. destruct (find _ (g_blocks (s_1 st))) as [b|] eqn:F.
  - assert (S : exists u v, g_blocks (s_1 st) = u ++ b :: v /\ b_type b = BOther /\ Forall (fun c => b_type c <> BOther) u).
    { clear - F. induction (g_blocks (s_1 st)) as [|c l IH]; [discriminate|]. cbn [find] in F. destruct (btype_beq (b_type c) BOther) eqn:T.
      - injection F as ->. apply btype_beq_eq in T. exists [], l. auto.
      - destruct (IH F) as (u & v & -> & Tb & Fu). exists (c :: u), v. split; auto. split; auto. constructor; auto.
        intros Q. rewrite Q in T. discriminate. }
    destruct S as (u & v & E & T & Fu). assert (I : In b (g_blocks (s_1 st))) by (rewrite E; apply in_or_app; right; now left).
    destruct (write_other_spec _ _ _ W I H) as (h & Wh & Ph). exists h. split; auto. left. exists u, b, v. auto.
  - injection H as <-. exists []. split; [apply writes_emits, emits_refl|]. right. split; auto. apply Forall_forall. intros c I T.
    apply (find_none _ _ F) in I. rewrite T in I. discriminate.
Qed.

(** ** The last passes, which may join blocks *)
Record asame (st st' : gst) : Prop := {
  as_0 : like (s_0 st) (s_0 st'); as_1 : like (s_1 st) (s_1 st'); as_n : s_nsyms st' = s_nsyms st;
  as_r0 : g_ren (s_0 st') = g_ren (s_0 st); as_r1 : g_ren (s_1 st') = g_ren (s_1 st) }.
Lemma asame_refl st : asame st st.
Proof. split; auto using like_refl. Qed.
Lemma asame_trans a b c : asame a b -> asame b c -> asame a c.
Proof. intros [] []. split; try congruence; eapply like_trans; eauto. Qed.
Lemma asame_upd0 s g st : keeps g -> asame st (upd0 s g st).
Proof. intros K. split; auto; [now apply updb_like|apply like_refl]. Qed.
Lemma asame_upd1 s g st : keeps g -> asame st (upd1 s g st).
Proof. intros K. split; auto; [apply like_refl|now apply updb_like]. Qed.
Lemma asame_emit t st : asame st (emit t st).
Proof. split; auto using like_refl. Qed.
Lemma asame_join p q st : asame st (join p q st).
Proof. unfold join. eapply asame_trans; [apply asame_upd0, keeps_pair|apply asame_upd1, keeps_pair]. Qed.
Lemma asame_writable st st' : asame st st' -> writable st -> writable st'.
Proof.
  intros [L0 L1 _ _ _] [[A0 A1] B C D E]. split.
  - split; [now rewrite (like_starts _ _ L0)|now rewrite (like_starts _ _ L1)].
  - unfold lines_ok. now rewrite (lk_lines _ _ L0).
  - unfold lines_ok. now rewrite (lk_lines _ _ L1).
  - intros b I. destruct (like_in _ _ _ L0 I) as (c & J & U). apply D in J. apply alike_fields in U as (S & T & _). lia.
  - intros b I. destruct (like_in _ _ _ L1 I) as (c & J & U). apply E in J. apply alike_fields in U as (S & T & _). lia.
Qed.
Lemma rfold_last (side : gst -> gfile) (g : cblock -> gst -> res gst) (P : cblock -> text -> Prop) st :
  NoDup (starts_of (side st)) ->
  (forall s, asame st s -> like (side st) (side s)) ->
  (forall b s s' b', asame st s -> In b (g_blocks (side s)) -> In b' (g_blocks (side st)) -> alike b b' -> g b s = Ok s' ->
     asame s s' /\ exists t, s_out s' = s_out s ++ t /\ P b' t) ->
  forall bs s s', (exists cs, g_blocks (side st) = cs ++ bs) -> asame st s ->
    rfold (fun k s => match getb (side s) k with Some b => g b s | None => Ok s end) (map b_start bs) s = Ok s' ->
    asame s s' /\ exists t, s_out s' = s_out s ++ t /\ forall n, parts (fun b k k' p => k' = k /\ P b p) bs n n t.
Proof.
  intros N F H. induction bs as [|b bs IH]; intros s s' (cs & Eb) W R; cbn [map rfold] in R.
  - injection R as <-. split; [apply asame_refl|]. exists []. split; [now rewrite app_nil_r|constructor].
  - bind R as s1 E1. assert (I : In b (g_blocks (side st))) by (rewrite Eb; apply in_or_app; right; now left).
    destruct (like_in_r _ _ _ (F s W) I) as (b' & I' & U).
    assert (G : getb (side s) (b_start b) = Some b').
    { replace (b_start b) with (b_start b') by (now apply alike_fields in U as (-> & _)).
      apply getb_of; auto. now rewrite (like_starts _ _ (F s W)). }
    rewrite G in E1. symmetry in U. destruct (H _ _ _ _ W I' I U E1) as (W1 & t1 & O1 & P1).
    destruct (IH s1 s') as (W2 & t2 & O2 & P2); auto.
    + exists (cs ++ [b]). now rewrite <- app_assoc.
    + eapply asame_trans; eauto.
    + split; [eapply asame_trans; eauto|]. exists (t1 ++ t2). split; [rewrite O2, O1; now rewrite app_assoc|].
      intros n. econstructor; [split; [reflexivity|exact P1]|apply P2].
Qed.
Lemma alike_blines f g b c : like f g -> alike b c -> blines g b = blines f c /\ follower g b = follower f c.
Proof. intros L A. split; [now apply like_blines|]. apply alike_fields in A as (_ & E & _). unfold follower. now rewrite E, (lk_lines _ _ L). Qed.
Lemma attr0_pass st st' : writable st ->
  each0 (fun b0 st => if btype_beq (b_type b0) BAttr then write_attr0 b0 st else Ok st) st = Ok st' ->
  asame st st' /\ exists t, s_out st' = s_out st ++ t /\ forall n, parts (attr0_part st) (g_blocks (s_0 st)) n n t.
Proof.
  intros W H. unfold attr0_part.
  apply (rfold_last s_0 (fun b0 st => if btype_beq (b_type b0) BAttr then write_attr0 b0 st else Ok st)
    (fun b0 p => match b_type b0 with
                 | BAttr => printed (told (rename_find (g_ren (s_0 st))) false) (follower (s_0 st) b0) (blines (s_0 st) b0) p
                 | _ => p = [] end) st) with (s := st) (s' := st'); auto using asame_refl; [apply W|intros s K; apply K| |now exists []].
  intros b s s' b' A I I' U E.
  assert (T : b_type b = b_type b') by now apply alike_fields in U. rewrite T in E.
  destruct (b_type b') eqn:Ty; cbn [btype_beq] in E;
    try (injection E as <-; split; [apply asame_refl|]; exists []; split; [now rewrite app_nil_r|reflexivity]).
  unfold write_attr0 in E. bind E as t Et. injection E as <-. pose proof (asame_writable _ _ A W) as Ws.
  apply cblock_text_printed in Et; [|apply Ws|now apply (wr_size0 _ Ws)].
  destruct (alike_blines _ _ _ _ (as_0 _ _ A) U) as (Bl & Fo). rewrite Bl, Fo in Et. rewrite (as_r0 _ _ A) in Et.
  split; [|exists t; split; [destruct (find_by_name _ _); reflexivity|exact Et]].
  eapply asame_trans; [apply (asame_emit t)|]. eapply asame_trans; [apply (asame_upd0 (b_start b) _ _ keeps_handled)|].
  destruct (find_by_name _ _); [|apply asame_refl]. eapply asame_trans; [apply asame_join|apply asame_upd1, keeps_handled].
Qed.
Lemma attr1_pass st st' : writable st ->
  each1 (fun b1 st => if btype_beq (b_type b1) BAttr && negb (b_handled b1) then write_attr1 b1 st else Ok st) st = Ok st' ->
  asame st st' /\ exists t, s_out st' = s_out st ++ t /\ forall n, parts (attr1_part st (rename_find (g_ren (s_1 st)))) (g_blocks (s_1 st)) n n t.
Proof.
  intros W H. unfold attr1_part.
  apply (rfold_last s_1 (fun b1 st => if btype_beq (b_type b1) BAttr && negb (b_handled b1) then write_attr1 b1 st else Ok st)
    (fun b1 p => p = [] \/ (b_type b1 = BAttr /\ printed (told (rename_find (g_ren (s_1 st))) false) (follower (s_1 st) b1) (blines (s_1 st) b1) p)) st)
    with (s := st) (s' := st'); auto using asame_refl; [apply W|intros s K; apply K| |now exists []].
  intros b s s' b' A I I' U E. destruct (_ && _) eqn:C.
  2:{ injection E as <-. split; [apply asame_refl|]. exists []. split; [now rewrite app_nil_r|now left]. }
  apply andb_true_iff in C as (T & _). apply btype_beq_eq in T.
  unfold write_attr1 in E. bind E as t Et. injection E as <-. pose proof (asame_writable _ _ A W) as Ws.
  apply cblock_text_printed in Et; [|apply Ws|now apply (wr_size1 _ Ws)].
  destruct (alike_blines _ _ _ _ (as_1 _ _ A) U) as (Bl & Fo). rewrite Bl, Fo in Et. rewrite (as_r1 _ _ A) in Et.
  split; [|exists t; split; [destruct (find_by_name _ _); reflexivity|right; split; [apply alike_fields in U; intuition congruence|exact Et]]].
  eapply asame_trans; [apply (asame_emit t)|]. eapply asame_trans; [apply (asame_upd1 (b_start b) _ _ keeps_handled)|].
  destruct (find_by_name _ _); [|apply asame_refl]. eapply asame_trans; [apply asame_join|apply asame_upd0, keeps_handled].
Qed.
Lemma other_pass st st' : writable st ->
  each1 (fun b1 st => if btype_beq (b_type b1) BOther && negb (b_handled b1) then write_other b1 st else Ok st) st = Ok st' ->
  asame st st' /\ exists t, s_out st' = s_out st ++ t /\ forall n, parts (other_part st) (g_blocks (s_1 st)) n n t.
Proof.
  intros W H. unfold other_part.
  apply (rfold_last s_1 (fun b1 st => if btype_beq (b_type b1) BOther && negb (b_handled b1) then write_other b1 st else Ok st)
    (fun b1 p => p = [] \/ (b_type b1 = BOther /\ printed eq (follower (s_1 st) b1) (blines (s_1 st) b1) p)) st)
    with (s := st) (s' := st'); auto using asame_refl; [apply W|intros s K; apply K| |now exists []].
  intros b s s' b' A I I' U E. destruct (_ && _) eqn:C.
  2:{ injection E as <-. split; [apply asame_refl|]. exists []. split; [now rewrite app_nil_r|now left]. }
  apply andb_true_iff in C as (T & _). apply btype_beq_eq in T.
  unfold write_other in E. bind E as t Et. injection E as <-. pose proof (asame_writable _ _ A W) as Ws.
  apply cblock_text_printed in Et; [|apply Ws|now apply (wr_size1 _ Ws)].
  destruct (alike_blines _ _ _ _ (as_1 _ _ A) U) as (Bl & Fo). rewrite Bl, Fo in Et.
  split; [|exists t; split; [destruct (b_pair b); reflexivity|right; split; [apply alike_fields in U; intuition congruence|exact Et]]].
  eapply asame_trans; [apply (asame_emit t)|]. eapply asame_trans; [apply (asame_upd1 (b_start b) _ _ keeps_handled)|].
  destruct (b_pair b); [|apply asame_refl]. apply asame_upd0, keeps_handled.
Qed.

(** ** The whole file *)
Lemma parts_alike (P Q : cblock -> Z -> Z -> text -> Prop) : forall bs cs n n' p, map core bs = map core cs ->
  (forall b c k k' t, alike b c -> P b k k' t -> Q c k k' t) -> parts P bs n n' p -> parts Q cs n n' p.
Proof.
  induction bs as [|b bs IH]; intros [|c cs] n n' p E H R; try discriminate E; inversion R; subst; [constructor|].
  cbn [map] in E. pose proof (f_equal (hd (core b)) E) as E1. pose proof (f_equal (@tl _) E) as E2. cbn [hd tl] in E1, E2.
  econstructor; [eapply H; eauto|]. apply IH; auto.
Qed.
Lemma unh_core (bs cs : list cblock) : map unh bs = map unh cs -> map core bs = map core cs.
Proof.
  revert cs. induction bs as [|b bs IH]; intros [|c cs] H; try discriminate H; auto. cbn [map] in *.
  pose proof (f_equal (hd (unh b)) H) as H1. pose proof (f_equal (@tl _) H) as H2. cbn [hd tl] in H1, H2.
  f_equal; auto. now apply unh_fields in H1.
Qed.
Lemma fsame_core f g : fsame f g -> map core (g_blocks g) = map core (g_blocks f).
Proof. intros [H _ _]. now apply unh_core. Qed.
Theorem write_cblocks_spec o st st' : writable st -> (forall b0 b1, b_type b0 = BFunc -> joined st b0 b1 -> b_pair b1 = Some (b_start b0)) ->
  s_out st = [] -> s_nsyms st = 0 -> write_cblocks o st = Ok st' -> output_of o st (s_out st').
Proof.
  intros W Bk Out Ns H. unfold write_cblocks in H. bind H as st0 E0. bind H as st1 E1. bind H as st2 E2. bind H as st3 E3.
  bind H as st4 E4. bind H as st5 E5. bind H as st6 E6. bind H as st7 E7. destruct (_ && _); [|discriminate]. injection H as <-.
  destruct (write_header_spec _ _ W E0) as (h & W0 & H0).
  pose proof (wt_same _ _ _ _ W0) as S0. pose proof (writable_same _ _ S0 W) as Wr0.
  assert (X1 : wsame st0 st1 /\ exists p, s_out st1 = s_out st0 ++ p /\ parts (original_part o st0) (g_blocks (s_0 st0)) (s_nsyms st0) (s_nsyms st1) p).
  { apply each0_parts with (g := write_original o); auto; [apply Wr0|].
    intros b s s' b' Ws I I' U E. pose proof (wsame_trans _ _ _ S0 Ws) as Ss.
    destruct (write_original_spec o b s s') as (p & n' & Wp & Op); auto.
    { now apply (writable_same st0). }
    { intros c0 c1 T J. destruct (wsame_joined _ _ _ _ (wsame_sym _ _ Ss) J) as (d0 & d1 & J' & U0 & U1).
      apply unh_fields in U0 as (A0 & _), U1 as (_ & _ & _ & P1). apply alike_fields in A0 as (Sd & _ & _ & _ & _ & Td & _).
      rewrite <- P1, <- Sd. apply Bk; congruence. }
    destruct Wp as [Wp Wn Wo]. split; auto. exists p. split; auto. rewrite Wn.
    eapply original_part_same; [|apply wsame_sym; exact Ws|exact I|exact I'|now symmetry|exact Op]. apply (wsame_wf st0); [apply Wr0|exact Ws]. }
  destruct X1 as (S1 & p & O1 & P1). pose proof (writable_same _ _ S1 Wr0) as Wr1.
  assert (X2 : wsame st1 st2 /\ exists q, s_out st2 = s_out st1 ++ q /\ parts (new_part o st1) (g_blocks (s_1 st1)) (s_nsyms st1) (s_nsyms st2) q).
  { apply each1_parts with (g := write_new o); auto; [apply Wr1|].
    intros b s s' b' Ws I I' U E. destruct (write_new_spec o b s s') as (q & n' & Wq & Oq); auto; [now apply (writable_same st1)|].
    destruct Wq as [Wq Wn Wo]. split; auto. exists q. split; auto. rewrite Wn.
    eapply new_part_same; [apply wsame_sym; exact Ws|symmetry; exact U|exact Oq]. }
  destruct X2 as (S2 & q & O2 & P2). pose proof (writable_same _ _ S2 Wr1) as Wr2.
  pose proof (wsame_trans _ _ _ S0 S1) as S01. pose proof (wsame_trans _ _ _ S01 S2) as S02.
  destruct (rename_unlinked_pass st2 st3 (wr_wf _ Wr2) E3) as (R3 & U3).
  assert (Wr3 : writable st3).
  { destruct Wr2 as [[A0 A1] B C D E]. destruct R3 as [R0 R1 R2 _ _]. split; [split| | | |]; rewrite ?R0; auto.
    - unfold starts_of. now rewrite R1.
    - unfold lines_ok. now rewrite R2.
    - now rewrite R1. }
  assert (X4 : wsame st3 st4 /\ exists u, s_out st4 = s_out st3 ++ u
      /\ parts (unlinked_part o st3 (rename_find (g_ren (s_1 st3)))) (g_blocks (s_1 st3)) (s_nsyms st3) (s_nsyms st4) u).
  { apply each1_parts with (g := write_unlinked o); auto; [apply Wr3|].
    intros b s s' b' Ws I I' U E. destruct (write_unlinked_spec o b s s') as (q' & n' & Wq & Oq); auto; [now apply (writable_same st3)|].
    destruct Wq as [Wq Wn Wo]. split; auto. exists q'. split; auto. rewrite Wn. rewrite <- (fs_ren _ _ (proj2 Ws)).
    eapply unlinked_part_same; [|symmetry; exact U|exact Oq]. symmetry. apply Ws. }
  destruct X4 as (S4 & u & O4 & P4). pose proof (writable_same _ _ S4 Wr3) as Wr4.
  destruct (attr0_pass _ _ Wr4 E5) as (A5 & a0 & O5 & P5). pose proof (asame_writable _ _ A5 Wr4) as Wr5.
  destruct (attr1_pass _ _ Wr5 E6) as (A6 & a1 & O6 & P6). pose proof (asame_writable _ _ A6 Wr5) as Wr6.
  destruct (other_pass _ _ Wr6 E7) as (A7 & x & O7 & P7).
  (* the lines, names and cores are those of the beginning *)
  assert (L0 : g_lines (s_0 st4) = g_lines (s_0 st)) by (rewrite (fs_lines _ _ (proj1 S4)), (r1_0 _ _ R3); apply S02).
  assert (L1 : g_lines (s_1 st4) = g_lines (s_1 st)) by (rewrite (fs_lines _ _ (proj2 S4)), (r1_lines _ _ R3); apply S02).
  assert (C0 : map core (g_blocks (s_0 st4)) = map core (g_blocks (s_0 st))).
  { rewrite (fsame_core _ _ (proj1 S4)), (r1_0 _ _ R3). apply fsame_core, S02. }
  assert (U1 : map unh (g_blocks (s_1 st3)) = map unh (g_blocks (s_1 st))) by (rewrite (r1_blocks _ _ R3); apply S02).
  assert (C1 : map core (g_blocks (s_1 st4)) = map core (g_blocks (s_1 st))).
  { rewrite (fsame_core _ _ (proj2 S4)). now apply unh_core. }
  assert (Rn0 : g_ren (s_0 st4) = g_ren (s_0 st)) by (rewrite (fs_ren _ _ (proj1 S4)), (r1_0 _ _ R3); apply S02).
  exists h, p, q, u, a0, a1, x, (s_nsyms st1), (s_nsyms st2), (s_nsyms st4), (rename_find (g_ren (s_1 st3))).
  split.
  { rewrite O7, O6, O5, O4, (r1_out _ _ R3), O2, O1, (wt_out _ _ _ _ W0), Out. cbn [app]. now rewrite <- !app_assoc. }
  split; [exact H0|]. split.
  { rewrite (wt_n _ _ _ _ W0), Ns in P1. eapply parts_map; [apply S0| |exact P1].
    intros b c k k' t Ib Ic U Pb. eapply original_part_same; [apply Wr0|apply wsame_sym; exact S0|exact Ib|exact Ic|now symmetry|exact Pb]. }
  split.
  { eapply parts_map; [apply S01| |exact P2]. intros b c k k' t Ib Ic U Pb.
    eapply new_part_same; [apply wsame_sym; exact S01|symmetry; exact U|exact Pb]. }
  split.
  { assert (Lb : forall b i n, nth_label (s_1 st2) b i n <-> nth_label (s_1 st) b i n).
    { intros b i n. unfold nth_label, blines. now rewrite (fs_lines _ _ (proj2 S02)). }
    destruct U3 as (V1 & V2 & V3). rewrite (fs_ren _ _ (proj2 S02)) in V1, V2. split; [exact V1|]. split.
    - intros n d E. destruct (V2 n d E) as [Q|(-> & b1 & (I & T & Un) & Q)]; [now left|right]. split; auto.
      destruct (fsame_in _ _ _ (proj2 S02) I) as (c1 & J & U). exists c1. apply unh_fields in U as (A & _ & Uc & _).
      destruct (alike_fields _ _ A) as (Q1 & Q2 & Q3 & _ & _ & Q6 & _). split; [split; [auto|split; congruence]|].
      rewrite Q3. destruct Q as [Q|(i & Q)]; [now left|right]. exists i. apply Lb in Q. unfold nth_label, blines in *. now rewrite Q1, Q2.
    - intros c1 (J & T & Un). destruct (fsame_in _ _ _ (fsame_sym _ _ (proj2 S02)) J) as (b1 & I & U).
      apply unh_fields in U as (A & _ & Uc & _). destruct (alike_fields _ _ A) as (Q1 & Q2 & Q3 & _ & _ & Q6 & _).
      destruct (V3 b1) as (Y1 & Y2); [split; [auto|split; congruence]|]. rewrite Q3 in Y1, Y2. split; auto. intros i n L. apply (Y2 i n).
      apply Lb. unfold nth_label, blines in *. now rewrite Q1, Q2. }
  split.
  { rewrite (r1_n _ _ R3) in P4. eapply parts_map; [exact U1| |exact P4]. intros b c k k' t Ib Ic U Pb.
    eapply unlinked_part_same; [|symmetry; exact U|exact Pb]. rewrite (r1_lines _ _ R3). symmetry. apply S02. }
  split.
  { specialize (P5 (s_nsyms st4)). eapply parts_alike; [exact C0| |exact P5]. intros b c k k' t A (Q & Qp). split; auto.
    revert Qp. unfold blines, follower. destruct (alike_fields _ _ A) as (Q1 & Q2 & _ & _ & _ & Q6 & _). now rewrite Q1, Q2, Q6, L0, Rn0. }
  split.
  { specialize (P6 (s_nsyms st4)). eapply parts_alike; [rewrite (lk_core _ _ (as_1 _ _ A5)); exact C1| |exact P6].
    intros b c k k' t A (Q & Qp). split; auto. destruct Qp as [Qp|(T & Qp)]; [now left|right].
    destruct (alike_fields _ _ A) as (Q1 & Q2 & _ & _ & _ & Q6 & _). split; [congruence|]. revert Qp. unfold blines, follower.
    rewrite (as_r1 _ _ A5), (fs_ren _ _ (proj2 S4)), (lk_lines _ _ (as_1 _ _ A5)). now rewrite Q1, Q2, L1. }
  { specialize (P7 (s_nsyms st4)). eapply parts_alike; [rewrite (lk_core _ _ (as_1 _ _ A6)), (lk_core _ _ (as_1 _ _ A5)); exact C1| |exact P7].
    intros b c k k' t A (Q & Qp). split; auto. destruct Qp as [Qp|(T & Qp)]; [now left|right].
    destruct (alike_fields _ _ A) as (Q1 & Q2 & _ & _ & _ & Q6 & _). split; [congruence|]. revert Qp. unfold blines, follower.
    rewrite (lk_lines _ _ (as_1 _ _ A6)), (lk_lines _ _ (as_1 _ _ A5)). now rewrite Q1, Q2, L1. }
Qed.
