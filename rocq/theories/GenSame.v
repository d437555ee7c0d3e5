(** Two files with the same lines and the same blocks: every function and variable is
    joined with itself and nothing is found changed or new. *)
From Coq Require Import String Sorted.
From Verif Require Import Base BaseProofs StorageModel TextModel TextSpec TextProofs ParseModel ParseSpec ParseProofs RenameModel RenameSpec
  RenameProofs CmpModel CmpSpec CmpProofs GenModel GenSpec GenFrame GenSteps GenOther GenLoad GenOut GenWhole GenNames.
Open Scope list_scope.

(** ** Comparing a block with itself *)
Lemma same_tokens_self m0 m1 s : (forall n, m0 n = m1 n) -> same_tokens m0 m1 s s.
Proof.
  intros E. destruct (get_token (Some s)) as [t q] eqn:G. destruct (has_first _ _ _ G) as (ts & H).
  exists (txt t :: ts), (txt t :: ts). split; auto. split; auto. generalize (txt t :: ts). clear - E. intros l.
  induction l as [|x l IH]; constructor; auto. unfold corresponds. rewrite <- E. destruct (m0 x) as [d|]; [right; right; left; eauto|now left].
Qed.
Lemma cmp_same o st b0 b1 : g_lines (s_1 st) = g_lines (s_0 st) -> b_start b0 = b_start b1 -> b_end b0 = b_end b1 ->
  (forall n, rename_find (g_ren (s_0 st)) n = rename_find (g_ren (s_1 st)) n) -> cmp_blocks o st true b0 b1 = Ok false.
Proof.
  intros L S E R. unfold cmp_blocks. assert (B : blines (s_1 st) b1 = blines (s_0 st) b0) by (unfold blines; now rewrite L, S, E).
  rewrite B. apply cmp_alike; [lia|]. cbn [ce_sect ce_rename ce_r0 ce_r1]. generalize (filter code_line (blines (s_0 st) b0)). intros l.
  induction l as [|x l IH]; constructor; auto. split; [left; reflexivity|]. right. now apply same_tokens_self.
Qed.
Lemma match_labels_same add r : forall l, match_labels add r l l = Ok r.
Proof. induction l as [|x l IH]; cbn [match_labels]; auto. now rewrite (proj2 (list_eqb_eq _ _) eq_refl). Qed.
Lemma match_func_same add st b : g_lines (s_1 st) = g_lines (s_0 st) -> match_func_labels add st b b = Ok (with_0 st (with_ren (s_0 st) (g_ren (s_0 st)))).
Proof. intros L. unfold match_func_labels. assert (B : blines (s_1 st) b = blines (s_0 st) b) by (unfold blines; now rewrite L). now rewrite B, match_labels_same. Qed.
Lemma with_ren_id f : with_ren f (g_ren f) = f. Proof. now destruct f. Qed.
Lemma with_0_id st : with_0 st (s_0 st) = st. Proof. now destruct st. Qed.
Lemma with_1_id st : with_1 st (s_1 st) = st. Proof. now destruct st. Qed.
Lemma same_refl n : same n n = true. Proof. now apply same_spec. Qed.
Lemma ren0_id st n : ren0 st n n = Ok st.
Proof. unfold ren0, rename_add. rewrite same_refl. cbn. now rewrite with_ren_id, with_0_id. Qed.
Lemma ren1_id st n : ren1 st n n = Ok st.
Proof. unfold ren1, rename_add. rewrite same_refl. cbn. now rewrite with_ren_id, with_1_id. Qed.

Section Same.
  Variables (o : gopts) (F : gfile).
  Hypothesis (Ord : in_order (length (g_lines F)) (g_blocks F)) (Nm : names F) (Fn : func_names F).
  Hypothesis (Vn : forall b, In b (g_blocks F) -> b_type b = BVar -> name b <> []).
  Hypothesis (Vd : forall b c, In b (g_blocks F) -> In c (g_blocks F) -> b_type b = BVar -> b_type c = BVar -> b_auto b = true -> hname b = hname c ->
    starts (name c) desc_str = true -> starts (name b) desc_str = true).
  Hypothesis (Fh : forall b, In b (g_blocks F) -> b_type b = BFunc -> b_auto b = true -> find_by_hname (g_blocks F) (hname b) = Some b).

  (** The second file is as the first. *)
  Record tw (st : gst) : Prop := {
    tw_b : g_blocks (s_1 st) = g_blocks (s_0 st);
    tw_l : g_lines (s_1 st) = g_lines (s_0 st); tw_L : g_lines (s_0 st) = g_lines F;
    tw_core : map core (g_blocks (s_0 st)) = map core (g_blocks F);
    tw_pair : forall b, In b (g_blocks (s_0 st)) -> b_pair b = None \/ b_pair b = Some (b_start b);
    tw_un : forall b, In b (g_blocks (s_0 st)) -> b_unlink b = false }.
  Definition eqren (st : gst) : Prop := forall n, rename_find (g_ren (s_0 st)) n = rename_find (g_ren (s_1 st)) n.
  Definition noren (st : gst) : Prop := g_ren (s_0 st) = [] /\ g_ren (s_1 st) = [].
  Lemma tw_starts0 st : tw st -> starts_of (s_0 st) = starts_of F.
  Proof. intros T. unfold starts_of. pose proof (tw_core _ T) as C. revert C. generalize (g_blocks F). generalize (g_blocks (s_0 st)).
    induction l as [|b l IH]; intros [|c l'] C; try discriminate C; auto. destruct (cons_core _ _ _ _ C) as (A & B). cbn [map].
    rewrite (IH _ B). f_equal. apply (alike_fields _ _ A). Qed.
  Lemma tw_starts1 st : tw st -> starts_of (s_1 st) = starts_of F.
  Proof. intros T. rewrite <- (tw_starts0 _ T). unfold starts_of. now rewrite (tw_b _ T). Qed.
  Lemma nodupF : NoDup (starts_of F). Proof. exact (in_order_starts _ _ Ord). Qed.
  Lemma tw_getb st s b : tw st -> getb (s_1 st) s = Some b <-> getb (s_0 st) s = Some b.
  Proof. intros T. unfold getb. now rewrite (tw_b _ T). Qed.
  Lemma tw_orig st b : tw st -> In b (g_blocks (s_0 st)) -> exists c, In c (g_blocks F) /\ alike b c.
  Proof. intros T I. exact (map_core_in _ _ _ (tw_core _ T) I). Qed.
  Lemma tw_one st b c : tw st -> In b (g_blocks (s_0 st)) -> In c (g_blocks (s_0 st)) -> b_start b = b_start c -> b = c.
  Proof. intros T. apply nodup_start. fold (starts_of (s_0 st)). rewrite (tw_starts0 _ T). exact nodupF. Qed.
  Lemma tw_get st b : tw st -> In b (g_blocks (s_0 st)) -> getb (s_0 st) (b_start b) = Some b.
  Proof. intros T I. apply getb_of; auto. rewrite (tw_starts0 _ T). exact nodupF. Qed.
  Lemma tw_names st : tw st -> names (s_0 st).
  Proof. intros T b c Ib Ic E Ne. destruct (tw_orig _ _ T Ib) as (b' & Jb & Ab), (tw_orig _ _ T Ic) as (c' & Jc & Ac).
    destruct (alike_fields _ _ Ab) as (S1 & _ & N1 & _), (alike_fields _ _ Ac) as (S2 & _ & N2 & _).
    apply (tw_one st); auto. rewrite S1, S2. f_equal. unfold name in *. apply Nm; auto; unfold name; congruence. Qed.
  Lemma tw_find_name st b : tw st -> In b (g_blocks (s_0 st)) -> name b <> [] -> find_by_name (g_blocks (s_1 st)) (name b) = Some b.
  Proof.
    intros T I Ne. rewrite (tw_b _ T). unfold find_by_name. destruct (find _ (g_blocks (s_0 st))) as [c|] eqn:E.
    - apply find_some in E as (J & E). apply same_spec in E. f_equal. symmetry. now apply (tw_names _ T).
    - apply (find_none _ _ E) in I. unfold name in I. now rewrite same_refl in I.
  Qed.
  Lemma tw_find_hname st b : tw st -> In b (g_blocks (s_0 st)) -> b_type b = BFunc -> b_auto b = true -> find_by_hname (g_blocks (s_1 st)) (hname b) = Some b.
  Proof.
    intros T I Ty Au. rewrite (tw_b _ T). destruct (tw_orig _ _ T I) as (c & J & A). destruct (alike_fields _ _ A) as (S & _ & _ & H & U & Y & _).
    assert (X : find_by_hname (g_blocks F) (hname c) = Some c) by (apply Fh; congruence).
    assert (Hn : hname c = hname b) by (unfold hname; now rewrite H). rewrite Hn in X.
    assert (G : forall l l', map core l = map core l' -> match find_by_hname l (hname b), find_by_hname l' (hname b) with
      | Some x, Some y => alike x y | None, None => True | _, _ => False end).
    { induction l as [|x l IH]; intros [|y l'] C; try discriminate C; [exact Logic.I|]. destruct (cons_core _ _ _ _ C) as (Ax & Cx).
      unfold find_by_hname. cbn [find]. destruct (alike_fields _ _ Ax) as (_ & _ & _ & Hx & _). rewrite Hx.
      destruct (same (txt (b_hname y)) (hname b)); [exact Ax|]. exact (IH _ Cx). }
    specialize (G _ _ (tw_core _ T)). rewrite X in G. destruct (find_by_hname (g_blocks (s_0 st)) (hname b)) as [x|] eqn:E; [|destruct G].
    f_equal. apply (tw_one st); auto; [now apply find_some in E|]. destruct (alike_fields _ _ G) as (Sx & _). congruence.
  Qed.
  (** Steps *)
  Lemma updb_map s g f : g_blocks (updb s g f) = map (fun b => if Nat.eqb (b_start b) s then g b else b) (g_blocks f). Proof. reflexivity. Qed.
  Lemma tw_join st s : tw st -> tw (join s s st).
  Proof.
    intros [B L LF C P U]. split; cbn [join upd0 upd1 with_0 with_1 s_0 s_1 updb with_blocks g_blocks g_lines].
    - now rewrite B.
    - exact L.
    - exact LF.
    - rewrite <- C, map_map. apply map_ext. intros b. now destruct (Nat.eqb _ s).
    - intros b I. apply in_map_iff in I as (c & E & I). destruct (Nat.eqb (b_start c) s) eqn:Q; subst b; [|now apply P].
      apply Nat.eqb_eq in Q. right. cbn. now rewrite Q.
    - intros b I. apply in_map_iff in I as (c & E & I). destruct (Nat.eqb (b_start c) s); subst b; exact (U c I).
  Qed.
  Lemma tw_ren st st' r0 r1 : tw st -> s_0 st' = with_ren (s_0 st) r0 -> s_1 st' = with_ren (s_1 st) r1 -> tw st'.
  Proof. intros [B L LF C P U] E0 E1. split; rewrite ?E0, ?E1; auto. Qed.
  Lemma join_get st s b : tw st -> In b (g_blocks (s_0 st)) -> b_start b = s ->
    forall c, In c (g_blocks (s_0 (join s s st))) -> b_start c = s -> b_pair c = Some s.
  Proof.
    intros T I S c J Sc. cbn [join upd0 upd1 with_0 with_1 s_0 s_1 updb with_blocks g_blocks] in J. apply in_map_iff in J as (d & E & J).
    destruct (Nat.eqb (b_start d) s) eqn:Q; subst c; [reflexivity|]. apply Nat.eqb_neq in Q. now rewrite Sc in Q.
  Qed.
  Lemma join_keep st s c : tw st -> In c (g_blocks (s_0 (join s s st))) -> exists d, In d (g_blocks (s_0 st)) /\ alike c d /\ (b_pair d <> None -> b_pair c <> None).
  Proof.
    intros T J. cbn [join upd0 upd1 with_0 with_1 s_0 s_1 updb with_blocks g_blocks] in J. apply in_map_iff in J as (d & E & J).
    exists d. split; auto. destruct (Nat.eqb (b_start d) s); subst c; split; try reflexivity; auto. cbn. congruence.
  Qed.

  (** ** Variables *)
  Definition skipped (p0 : bool) (b : cblock) : Prop := b_pair b <> None \/ (p0 = true /\ starts (name b) desc_str = true).
  Definition var_done (p0 : bool) (rest : list nat) (st : gst) : Prop :=
    forall b, In b (g_blocks (s_0 st)) -> b_type b = BVar -> ~ In (b_start b) rest -> skipped p0 b.
  Definition hint_first (rest : list nat) (st : gst) (h : option nat) : Prop :=
    forall s c, h = Some s -> getb (s_0 st) s = Some c -> b_type c = BVar
      /\ (~ In s rest \/ exists u v, rest = u ++ s :: v /\ forall d, In d (g_blocks (s_0 st)) -> In (b_start d) u -> b_type d <> BVar).
  Lemma noren_id st : noren st -> forall n, del0 n st = st /\ del1 n st = st.
  Proof.
    intros (R0 & R1) n. unfold del0, del1. split.
    - rewrite R0. change (rename_del [] n) with (@nil (text * text)). rewrite <- R0. now rewrite with_ren_id, with_0_id.
    - rewrite R1. change (rename_del [] n) with (@nil (text * text)). rewrite <- R1. now rewrite with_ren_id, with_1_id.
  Qed.
  Lemma noren_eqren st : noren st -> eqren st. Proof. intros (A & B) n. now rewrite A, B. Qed.
  Lemma var_cmp_self st b : tw st -> noren st -> In b (g_blocks (s_0 st)) -> var_cmp o st b b = Ok (false, st).
  Proof.
    intros T R I. unfold var_cmp.
    assert (X : match b_pair b with Some p => negb (Nat.eqb p (b_start b)) | None => false end = false).
    { destruct (tw_pair _ T b I) as [->| ->]; auto. now rewrite Nat.eqb_refl. }
    rewrite X. rewrite (proj2 R). cbn [rename_find find]. rewrite same_refl. cbn [negb].
    rewrite ren0_id. cbn [rbind]. rewrite ren1_id. cbn [rbind].
    rewrite cmp_same; auto; [|apply T|now apply noren_eqren]. cbn [rbind].
    destruct (noren_id _ R (name b)) as (D0 & D1). now rewrite D0, D1.
  Qed.
  Lemma var_cmp_out p0 st b c : tw st -> noren st -> In b (g_blocks (s_0 st)) -> In c (g_blocks (s_0 st)) -> b_type b = BVar -> b_type c = BVar -> b_auto b = true ->
    ~ skipped p0 b -> skipped p0 c -> var_cmp o st b c = Ok (true, st).
  Proof.
    intros T R Ib Ic Tb Tc Au Nb Sc. unfold var_cmp.
    destruct (tw_pair _ T c Ic) as [Pc|Pc]; rewrite Pc.
    - rewrite (proj2 R). cbn [rename_find find]. destruct (same (hname b) (hname c)) eqn:Q; auto. exfalso.
      apply same_spec in Q. destruct Sc as [Sc|(P & D)]; [contradiction|]. apply Nb. right. split; auto.
      destruct (tw_orig _ _ T Ib) as (b' & Jb & Ab), (tw_orig _ _ T Ic) as (c' & Jc & Ac).
      destruct (alike_fields _ _ Ab) as (_ & _ & N1 & H1 & U1 & T1 & _), (alike_fields _ _ Ac) as (_ & _ & N2 & H2 & _ & T2 & _).
      unfold name, hname in *. rewrite N1. apply (Vd b' c'); auto; unfold name, hname; congruence.
    - destruct (Nat.eqb (b_start c) (b_start b)) eqn:Q; auto. exfalso. apply Nat.eqb_eq in Q. apply Nb.
      assert (b = c) as -> by now apply (tw_one st). exact Sc.
  Qed.
  Lemma var_search_self p0 st b v : tw st -> noren st -> In b (g_blocks (s_0 st)) -> b_type b = BVar -> b_auto b = true -> ~ skipped p0 b ->
    forall u, (forall c, In c (g_blocks (s_0 st)) -> b_type c = BVar -> In (b_start c) u -> skipped p0 c) ->
    var_search o st b (u ++ b_start b :: v) = Ok (Some (b_start b), st).
  Proof.
    intros T R I Tb Au Nb. induction u as [|s u IH]; intros K; cbn [app var_search].
    - rewrite (proj2 (tw_getb st _ b T) (tw_get _ _ T I)). rewrite Tb. cbn [btype_beq]. rewrite var_cmp_self; auto.
    - destruct (getb (s_1 st) s) as [c|] eqn:G; [|apply IH; intros c Ic Tc Jc; apply K; auto; now right].
      apply (tw_getb _ _ _ T) in G. destruct (getb_in _ _ _ G) as (Ic & Sc).
      destruct (b_type c) eqn:Tc; cbn [btype_beq]; try (apply IH; intros d Id Td Jd; apply K; auto; now right).
      rewrite (var_cmp_out p0); auto.
      + cbn [rbind fst snd]. apply IH; intros d Id Td Jd; apply K; auto; now right.
      + apply K; auto. left. auto.
  Qed.
  Lemma next_var st u v s : tw st -> starts_of F = u ++ s :: v -> hint_first v st (next_after (s_1 st) s BVar).
  Proof.
    intros T E s' c Hs Gc. unfold next_after, block_from in Hs. rewrite (tw_b _ T) in Hs.
    destruct (find _ (g_blocks (s_0 st))) as [x|] eqn:Fx; [|discriminate]. injection Hs as <-.
    pose proof Fx as Fx'. apply find_some in Fx' as (Ix & Qx). apply andb_true_iff in Qx as (Lx & Tx).
    rewrite (tw_get _ _ T Ix) in Gc. injection Gc as <-. split; [destruct (b_type x); try discriminate; reflexivity|]. right.
    rewrite <- (tw_starts0 _ T) in E. unfold starts_of in E.
    assert (O : in_order (length (g_lines F)) (g_blocks (s_0 st))) by (eapply in_order_core; [|exact Ord]; apply T).
    revert E Fx O. generalize (g_blocks (s_0 st)). revert u. intros u l. revert u.
    induction l as [|y l IH]; intros u E Fx O; [destruct u; discriminate|]. cbn [find] in Fx.
    destruct O as (Q & Fo). inversion Q as [|? ? Q' Qy]; subst. inversion Fo as [|? ? Fy Fo']; subst.
    destruct u as [|z u]; cbn [app map] in E; injection E as E1 E2.
    - assert (Nat.leb (S s) (b_start y) = false) as X by (apply Nat.leb_gt; lia). rewrite X in Fx. cbn [andb] in Fx. subst v. clear IH.
      assert (K : forall d, In d l -> (s < b_start d)%nat).
      { intros d Id. rewrite Forall_forall in Qy. specialize (Qy d Id). lia. }
      assert (G : forall l, (forall d, In d l -> (s < b_start d)%nat) -> find (fun b => Nat.leb (S s) (b_start b) && btype_beq (b_type b) BVar) l = Some x ->
        exists l1 l2, l = l1 ++ x :: l2 /\ forall d, In d l1 -> b_type d <> BVar).
      { clear. induction l as [|w l IH]; intros K H; [discriminate|]. cbn [find] in H.
        rewrite (proj2 (Nat.leb_le _ _)) in H by (apply K; now left). cbn [andb] in H.
        destruct (btype_beq (b_type w) BVar) eqn:B.
        - injection H as ->. exists [], l. split; [reflexivity|intros d []].
        - destruct (IH (fun d I => K d (or_intror I)) H) as (l1 & l2 & -> & N). exists (w :: l1), l2. split; auto.
          intros d [<-|I]; auto. intros Y. rewrite Y in B. discriminate. }
      destruct (G l K Fx) as (l1 & l2 & -> & N). exists (map b_start l1), (map b_start l2). rewrite map_app. split; auto.
      intros d [<-|Id] J.
      + exfalso. apply in_map_iff in J as (w & Ew & Iw). specialize (K w). rewrite in_app_iff in K. specialize (K (or_introl Iw)). lia.
      + apply in_map_iff in J as (w & Ew & Iw). assert (d = w) as ->; [|now apply N].
        assert (ND : NoDup (map b_start (l1 ++ x :: l2))) by (eapply in_order_starts; split; eassumption).
        apply (nodup_start (l1 ++ x :: l2)); auto. rewrite in_app_iff. now left.
    - assert (Hz : (b_start y < s)%nat).
      { assert (In s (map b_start l)) as Js by (rewrite E2; rewrite in_app_iff; right; now left). apply in_map_iff in Js as (w & Ew & Iw).
        rewrite Forall_forall in Qy. specialize (Qy w Iw). lia. }
      assert (Nat.leb (S s) (b_start y) = false) as X by (apply Nat.leb_gt; lia). rewrite X in Fx. cbn [andb] in Fx.
      destruct (IH u E2 Fx (conj Q' Fo')) as (u' & v' & Ev & N). exists u', v'. split; auto.
      intros d [<-|Id] J; auto. exfalso.
      assert (In (b_start y) (map b_start l)) as Js.
      { rewrite E2, in_app_iff. right. right. rewrite Ev, in_app_iff. now left. }
      apply in_map_iff in Js as (w & Ew & Iw). rewrite Forall_forall in Qy. specialize (Qy w Iw). lia.
  Qed.
  Lemma first_var st : tw st -> hint_first (starts_of F) st (block_from (s_1 st) 0 BVar).
  Proof.
    intros T s c Hs Gc. unfold block_from in Hs. rewrite (tw_b _ T) in Hs.
    destruct (find _ (g_blocks (s_0 st))) as [x|] eqn:Fx; [|discriminate]. injection Hs as <-.
    pose proof Fx as Fx'. apply find_some in Fx' as (Ix & Qx). cbn [Nat.leb andb] in Qx.
    rewrite (tw_get _ _ T Ix) in Gc. injection Gc as <-. split; [destruct (b_type x); try discriminate; reflexivity|]. right.
    rewrite <- (tw_starts0 _ T). unfold starts_of.
    assert (G : forall l, find (fun b => Nat.leb 0 (b_start b) && btype_beq (b_type b) BVar) l = Some x ->
        exists l1 l2, l = l1 ++ x :: l2 /\ forall d, In d l1 -> b_type d <> BVar).
    { clear. induction l as [|w l IH]; intros H; [discriminate|]. cbn [find Nat.leb andb] in H.
      destruct (btype_beq (b_type w) BVar) eqn:B.
      - injection H as ->. exists [], l. split; [reflexivity|intros d []].
      - destruct (IH H) as (l1 & l2 & -> & N). exists (w :: l1), l2. split; auto.
        intros d [<-|I]; auto. intros Y. rewrite Y in B. discriminate. }
    destruct (G _ Fx) as (l1 & l2 & El & N). exists (map b_start l1), (map b_start l2). split; [now rewrite El, map_app|].
    intros d Id J. apply in_map_iff in J as (w & Ew & Iw). assert (d = w) as ->; [|now apply N].
    apply (tw_one st); auto. rewrite El, in_app_iff. now left.
  Qed.
  Definition round_inv (p0 : bool) (rest : list nat) (x : gst * option nat * bool) : Prop :=
    let '(st, h, _) := x in tw st /\ noren st /\ var_done p0 rest st /\ hint_first rest st h /\ exists u, starts_of F = u ++ rest.
  Lemma hint_tail s rest st h : NoDup (s :: rest) -> hint_first (s :: rest) st h -> hint_first rest st h.
  Proof.
    intros N H s' c E G. destruct (H s' c E G) as (T & Q). split; auto. destruct Q as [Q|(u & v & Eu & K)].
    - left. intros I. apply Q. now right.
    - destruct u as [|z u]; injection Eu as <- Eu.
      + left. now inversion N.
      + right. exists u, v. split; auto. intros d I J. apply K; auto. now right.
  Qed.
  Lemma var_round_step_same p0 s rest x x' : round_inv p0 (s :: rest) x -> var_round_step o p0 s x = Ok x' -> round_inv p0 rest x'.
  Proof.
    destruct x as [[st h] pr]. intros (T & R & D & H & u & E) St.
    assert (ND : NoDup (s :: rest)).
    { pose proof nodupF as N. rewrite E in N. clear - N. induction u as [|z u IH]; auto. inversion N; auto. }
    assert (E' : starts_of F = (u ++ [s]) ++ rest) by (rewrite <- app_assoc; exact E).
    unfold var_round_step in St. destruct (getb (s_0 st) s) as [b|] eqn:G.
    2:{ injection St as <-. split; auto. split; auto. split; [|split; [eapply hint_tail; eauto|eauto]].
        intros b I Tb Nb. apply D; auto. intros [->|J]; auto. rewrite (tw_get _ _ T I) in G. discriminate. }
    destruct (getb_in _ _ _ G) as (I & Sb).
    assert (Skip : (b_type b <> BVar \/ skipped p0 b) -> round_inv p0 rest (st, h, pr)).
    { intros K. split; auto. split; auto. split; [|split; [eapply hint_tail; eauto|eauto]].
      intros c Ic Tc Nc. destruct (Nat.eq_dec (b_start c) s) as [Es|Es].
      - assert (c = b) as -> by (apply (tw_one st); auto; congruence). destruct K as [K|K]; [contradiction|exact K].
      - apply D; auto. intros [Q|Q]; auto. }
    destruct (negb (btype_beq (b_type b) BVar)) eqn:Tb.
    { injection St as <-. apply Skip. left. intros Q. rewrite Q in Tb. discriminate. }
    assert (TV : b_type b = BVar) by (destruct (b_type b); try discriminate Tb; reflexivity).
    destruct (b_pair b) as [p|] eqn:Pb; [injection St as <-; apply Skip; right; left; congruence|].
    destruct (p0 && starts (name b) desc_str) eqn:Q; [injection St as <-; apply Skip; right; right; now apply andb_true_iff in Q|].
    assert (NS : ~ skipped p0 b).
    { intros [K|(K1 & K2)]; [contradiction|]. rewrite K1, K2 in Q. discriminate. }
    assert (Before : forall c, In c (g_blocks (s_0 st)) -> b_type c = BVar -> In (b_start c) u -> skipped p0 c).
    { intros c Ic Tc Jc. apply D; auto. intros K. pose proof nodupF as N. rewrite E in N. clear - N Jc K.
      induction u as [|z u IH]; [destruct Jc|]. inversion N as [|? ? Nz N']; subst. destruct Jc as [->|Jc]; auto.
      apply Nz. rewrite in_app_iff. now right. }
    assert (X : var_try o st b h = Ok (Some s, st)).
    { unfold var_try. destruct (b_auto b) eqn:Au; cbn [negb].
      - assert (Se : var_search o st b (starts_of (s_1 st)) = Ok (Some s, st)).
        { rewrite (tw_starts1 _ T), E, <- Sb. apply (var_search_self p0); auto. }
        destruct h as [s'|]; [|exact Se]. destruct (getb (s_1 st) s') as [c|] eqn:Gc; [|exact Se].
        apply (tw_getb _ _ _ T) in Gc. destruct (H s' c eq_refl Gc) as (Tc & K). destruct (getb_in _ _ _ Gc) as (Ic & Sc).
        assert (Y : ~ In s' (s :: rest) \/ s' = s).
        { destruct K as [K|(u' & v' & Eu & K)]; auto. right. destruct u' as [|z u']; injection Eu as <- Eu; auto.
          exfalso. apply (K b I); auto. left. congruence. }
        destruct Y as [Y| ->].
        + rewrite (var_cmp_out p0); auto. apply D; auto. now rewrite Sc.
        + assert (c = b) as -> by (apply (tw_one st); auto; congruence). rewrite var_cmp_self; auto.
      - assert (Nb : name b <> []).
        { destruct (tw_orig _ _ T I) as (b' & Jb & Ab). destruct (alike_fields _ _ Ab) as (_ & _ & N1 & _ & _ & T1 & _).
          unfold name. rewrite N1. apply Vn; congruence. }
        rewrite (tw_find_name _ _ T I Nb). now rewrite Sb. }
    rewrite X in St. cbn [rbind fst snd] in St. assert (G1 : getb (s_1 st) s = Some b) by now apply (tw_getb _ _ _ T). rewrite G1 in St.
    rewrite ren0_id in St. cbn [rbind] in St. rewrite ren1_id in St. cbn [rbind] in St. injection St as <-.
    pose proof (tw_join st s T) as T'. split; auto. split; [exact R|]. split; [|split; [|eauto]].
    - intros c Ic Tc Nc. destruct (Nat.eq_dec (b_start c) s) as [Es|Es].
      + left. rewrite (join_get st s b T I Sb c Ic Es). discriminate.
      + destruct (join_keep st s c T Ic) as (d & Id & A & P). destruct (alike_fields _ _ A) as (S1 & _ & N1 & _ & _ & T1 & _).
        destruct (D d Id) as [K|K]; [congruence| |left; auto|right; unfold name in *; now rewrite N1].
        intros [K|K]; congruence.
    - exact (next_var _ _ _ _ T' E).
  Qed.
  Lemma var_round_same p0 st x : tw st -> noren st -> var_round o p0 st = Ok x -> tw (fst x) /\ noren (fst x) /\ var_done p0 [] (fst x).
  Proof.
    intros T R H. unfold var_round in H. bind H as y E. injection H as <-. cbn [fst snd].
    eapply (rfold_inv _ (round_inv p0)) in E; [|intros; eapply var_round_step_same; eauto|].
    - destruct y as [[st' h] pr]. destruct E as (T' & R' & D & _). auto.
    - split; auto. split; auto. split; [|split].
      + intros b I _ N. exfalso. apply N. unfold starts_of. now apply in_map.
      + rewrite (tw_starts0 _ T). now apply first_var.
      + exists []. rewrite (tw_starts0 _ T). reflexivity.
  Qed.
  Lemma var_rounds_same : forall n p st st', (p < 2)%nat -> tw st -> noren st -> var_rounds o n p st = Ok st' -> tw st' /\ noren st' /\ var_done false [] st'.
  Proof.
    induction n as [|n IH]; intros p st st' Hp T R H; cbn [var_rounds] in H; [discriminate|].
    bind H as x E. destruct (var_round_same _ _ _ T R E) as (T' & R' & D).
    destruct (Nat.ltb _ 2) eqn:L.
    - apply Nat.ltb_lt in L. exact (IH _ _ _ L T' R' H).
    - injection H as <-. split; auto. split; auto. apply Nat.ltb_ge in L. destruct (snd x); [lia|]. assert (p = 1)%nat as -> by lia. exact D.
  Qed.
  Definition all_vars (st : gst) : Prop := forall b, In b (g_blocks (s_0 st)) -> b_type b = BVar -> b_pair b = Some (b_start b).
  Lemma each1_same (g : cblock -> gst -> res gst) st st' : (forall b, In b (g_blocks (s_1 st)) -> g b st = Ok st) -> each1 g st = Ok st' -> st' = st.
  Proof.
    intros K H. unfold each1 in H. remember (starts_of (s_1 st)) as l eqn:El. clear El.
    induction l as [|s l IH]; cbn [rfold] in H; [now injection H as <-|].
    destruct (getb (s_1 st) s) as [b|] eqn:G; [rewrite (K b) in H by now apply getb_in in G|]; cbn [rbind] in H; auto.
  Qed.
  Lemma each0_same' (g : cblock -> gst -> res gst) st st' : (forall b, In b (g_blocks (s_0 st)) -> g b st = Ok st) -> each0 g st = Ok st' -> st' = st.
  Proof.
    intros K H. unfold each0 in H. remember (starts_of (s_0 st)) as l eqn:El. clear El.
    induction l as [|s l IH]; cbn [rfold] in H; [now injection H as <-|].
    destruct (getb (s_0 st) s) as [b|] eqn:G; [rewrite (K b) in H by now apply getb_in in G|]; cbn [rbind] in H; auto.
  Qed.
  Lemma analyze_var_same st st' : tw st -> noren st -> analyze_var o st = Ok st' -> tw st' /\ noren st' /\ all_vars st'.
  Proof.
    intros T R H. unfold analyze_var, var_matches in H. bind H as st1 E1. bind E1 as st0 E0. bind H as st2 E2.
    destruct (var_rounds_same _ 0%nat _ _ Nat.lt_0_2 T R E0) as (T0 & R0 & D).
    assert (V : all_vars st0).
    { intros b I Tb. destruct (D b I Tb (fun x => x)) as [K|(K & _)]; [|discriminate]. destruct (tw_pair _ T0 b I); congruence. }
    apply each0_same in E1; [subst st1|intros b s s' Q; unfold var_removed in Q; destruct (_ && _); congruence].
    apply each0_same in E2; [subst st2|].
    2:{ intros b s s' Q. unfold var_check in Q. destruct (negb _); [congruence|]. destruct (b_pair b); [|congruence].
        destruct (in_syms_list _ _ _ _); [congruence|]. destruct (getb _ _); [|discriminate]. bind Q as d Ed. destruct d; congruence. }
    apply each1_same in H; [now subst st'|]. intros b I. rewrite (tw_b _ T0) in I. destruct (b_type b) eqn:Tb; auto.
    rewrite (V b I Tb). reflexivity.
  Qed.

  (** ** Functions *)
  Definition all_of (P : cblock -> Prop) (rest : list nat) (st : gst) : Prop :=
    forall b, In b (g_blocks (s_0 st)) -> P b -> ~ In (b_start b) rest -> b_pair b <> None.
  Definition nat_ok (P : cblock -> Prop) : Prop := forall b c, alike b c -> P b -> P c.
  Definition fr (st : gst) : Prop := eqren st /\ all_vars st.
  Definition func_inv (P : cblock -> Prop) (rest : list nat) (st : gst) : Prop := tw st /\ fr st /\ all_of P rest st.
  Lemma add_val r s d r' n : rename_add r s d = Ok r' -> s <> d -> rename_find r' n = if same s n then Some d else rename_find r n.
  Proof.
    unfold rename_add. intros H Ne. destruct (same s d) eqn:E; [apply same_spec in E; contradiction|].
    destruct (rename_find r s) as [e|] eqn:Fs.
    - destruct (same e d) eqn:Q; [|discriminate]. apply same_spec in Q. subst e. injection H as <-.
      destruct (same s n) eqn:Q2; auto. apply same_spec in Q2. now subst n.
    - injection H as <-. now rewrite find_cons.
  Qed.
  Lemma func_join_same b st st' : tw st -> fr st -> In b (g_blocks (s_0 st)) -> func_join b b st = Ok st' ->
    tw st' /\ fr st' /\ g_blocks (s_0 st') = g_blocks (s_0 (join (b_start b) (b_start b) st)).
  Proof.
    intros T R I H. unfold func_join in H. pose proof (tw_join st (b_start b) T) as T'.
    rewrite match_func_same in H by apply T'. cbn [rbind] in H. rewrite with_ren_id, with_0_id in H.
    bind H as st2 E2. unfold new_name1, new_name0, ren0, ren1 in *. bind E2 as r1 Q1. injection E2 as <-. bind H as r0 Q0. injection H as <-.
    split; [eapply (tw_ren (join (b_start b) (b_start b) st)); [exact T'|reflexivity|reflexivity]|]. split; [|reflexivity]. split.
    2:{ intros c Ic Tc. destruct (join_keep st _ c T Ic) as (d & Id & Al & K). destruct (alike_fields _ _ Al) as (_ & _ & _ & _ & _ & Y & _).
        pose proof (tw_pair _ T' c Ic) as [Z|Z]; auto. exfalso. apply K; auto. rewrite (proj2 R d Id); [discriminate|congruence]. }
    intros n. cbn [with_0 with_1 s_0 s_1 with_ren g_ren del0] in *.
    rewrite (add_val _ _ _ _ n Q0), (add_val _ _ _ _ n Q1); try apply suffix_neq. destruct (same (name b) n) eqn:Q; auto.
    rewrite find_del, Q. apply (proj1 R).
  Qed.
  Lemma all_after P b rest st st' : nat_ok P -> tw st -> In b (g_blocks (s_0 st)) -> all_of P (b_start b :: rest) st ->
    g_blocks (s_0 st') = g_blocks (s_0 (join (b_start b) (b_start b) st)) -> all_of P rest st'.
  Proof.
    intros O T I A E c Ic Pc Nc. rewrite E in Ic. destruct (Nat.eq_dec (b_start c) (b_start b)) as [Q|Q].
    - rewrite (join_get st _ b T I eq_refl c Ic Q). discriminate.
    - destruct (join_keep st _ c T Ic) as (d & Id & Al & K). destruct (alike_fields _ _ Al) as (S1 & _).
      apply K, (A d Id); [now apply (O c)|]. intros [J|J]; congruence.
  Qed.
  Lemma all_skip P s rest st : all_of P (s :: rest) st -> (forall b, In b (g_blocks (s_0 st)) -> b_start b = s -> P b -> b_pair b <> None) -> all_of P rest st.
  Proof. intros A K b I Pb N. destruct (Nat.eq_dec (b_start b) s) as [Q|Q]; [now apply K|]. apply A; auto. intros [J|J]; congruence. Qed.
  Definition exact_func (b : cblock) : Prop := b_type b = BFunc /\ b_auto b = false.
  Definition some_func (b : cblock) : Prop := b_type b = BFunc.
  Lemma each0_rest (P : cblock -> Prop) g st st' :
    (forall s rest b st st', getb (s_0 st) s = Some b -> func_inv P (s :: rest) st -> g b st = Ok st' -> func_inv P rest st') ->
    tw st -> fr st -> each0 g st = Ok st' -> func_inv P [] st'.
  Proof.
    intros K T R H. unfold each0 in H. eapply (rfold_inv _ (func_inv P)) in H; [exact H| |].
    - intros s rest s1 s2 V Q. destruct (getb (s_0 s1) s) as [b|] eqn:G; [eapply K; eauto|]. injection Q as <-.
      destruct V as (A & B & C). split; auto. split; auto. apply (all_skip _ s); auto. intros b I Sb. rewrite <- Sb, (tw_get _ _ A I) in G. discriminate.
    - split; auto. split; auto. intros b I _ N. destruct N. unfold starts_of. now apply in_map.
  Qed.
  Lemma func_named st b : tw st -> In b (g_blocks (s_0 st)) -> b_type b = BFunc -> name b <> [].
  Proof.
    intros T I Tb. destruct (tw_orig _ _ T I) as (b' & Jb & Ab). destruct (alike_fields _ _ Ab) as (_ & _ & N1 & _ & _ & T1 & _).
    unfold name. rewrite N1. apply Fn; congruence.
  Qed.
  Lemma func_exact_same s rest b st st' : getb (s_0 st) s = Some b -> func_inv exact_func (s :: rest) st -> func_exact b st = Ok st' -> func_inv exact_func rest st'.
  Proof.
    intros G (T & R & A) H. destruct (getb_in _ _ _ G) as (I & <-). unfold func_exact in H. destruct (_ || _) eqn:Q.
    - injection H as <-. split; auto. split; auto. apply (all_skip _ (b_start b)); auto. intros c Ic Sc (Tc & Ac).
      assert (c = b) as -> by now apply (tw_one st). rewrite Tc, Ac in Q. discriminate.
    - apply orb_false_iff in Q as (Q1 & Q2). assert (Tb : b_type b = BFunc) by (destruct (b_type b); try discriminate Q1; reflexivity).
      rewrite (tw_find_name _ _ T I) in H by now apply (func_named st). destruct (func_join_same _ _ _ T R I H) as (T' & R' & E).
      split; auto. split; auto. refine (all_after exact_func b rest st st' _ T I A E). intros x y Al (K1 & K2). destruct (alike_fields _ _ Al) as (_ & _ & _ & _ & U & Y & _). split; congruence.
  Qed.
  Lemma func_human_same s rest b st st' : (forall c, In c (g_blocks (s_0 st)) -> exact_func c -> b_pair c <> None) ->
    getb (s_0 st) s = Some b -> func_inv some_func (s :: rest) st -> func_human o true b st = Ok st' ->
    func_inv some_func rest st' /\ (forall c, In c (g_blocks (s_0 st')) -> exact_func c -> b_pair c <> None).
  Proof.
    intros Ex G (T & R & A) H. destruct (getb_in _ _ _ G) as (I & <-). unfold func_human in H. destruct (_ || _ || _) eqn:Q.
    - injection H as <-. split; auto. split; auto. split; auto. apply (all_skip _ (b_start b)); auto. intros c Ic Sc Tc.
      assert (c = b) as -> by now apply (tw_one st). unfold some_func in Tc. rewrite Tc in Q. cbn [btype_beq negb orb] in Q.
      destruct (b_pair b) eqn:Pb; [congruence|]. cbn [orb] in Q. apply negb_true_iff in Q. exfalso. apply (Ex b I); [now split|exact Pb].
    - apply orb_false_iff in Q as (Q & Q3). apply orb_false_iff in Q as (Q1 & Q2).
      assert (Tb : b_type b = BFunc) by (destruct (b_type b); try discriminate Q1; reflexivity). apply negb_false_iff in Q3.
      rewrite (tw_find_hname _ _ T I Tb Q3) in H. cbn [match_human] in H. rewrite Q3 in H. cbn [negb orb] in H. rewrite Q2 in H.
      rewrite match_func_same in H by apply T. cbn [rbind] in H. rewrite with_ren_id, with_0_id in H.
      rewrite cmp_same in H; auto; [|apply T|apply R]. cbn [rbind] in H. rewrite match_func_same in H by apply T. cbn [rbind fst snd] in H.
      rewrite with_ren_id, with_0_id in H. destruct (func_join_same _ _ _ T R I H) as (T' & R' & E). split.
      + split; auto. split; auto. refine (all_after some_func b rest st st' _ T I A E). intros x y Al K. destruct (alike_fields _ _ Al) as (_ & _ & _ & _ & _ & Y & _). unfold some_func in *. congruence.
      + intros c Ic Ec. rewrite E in Ic. destruct (join_keep st _ c T Ic) as (d & Id & Al & K). apply K, Ex; auto.
        destruct (alike_fields _ _ Al) as (_ & _ & _ & _ & U & Y & _). destruct Ec. split; congruence.
  Qed.
  Lemma passes_same st st1 st2 st3 st4 : tw st -> fr st -> each0 func_exact st = Ok st1 -> each0 (func_human o true) st1 = Ok st2 ->
    each0 (func_human o false) st2 = Ok st3 -> each1 func_new st3 = Ok st4 -> tw st4 /\ fr st4 /\ all_of some_func [] st4.
  Proof.
    intros T R H1 H2 H3 H4. destruct (each0_rest exact_func _ _ _ func_exact_same T R H1) as (T1 & R1 & A1).
    assert (Q : func_inv some_func [] st2).
    { unfold each0 in H2. eapply (rfold_inv _ (fun l s => func_inv some_func l s /\ (forall c, In c (g_blocks (s_0 s)) -> exact_func c -> b_pair c <> None))) in H2; [apply H2| |].
      - intros s rest s1 s2 (V & X) E. destruct (getb (s_0 s1) s) as [b|] eqn:G; [eapply func_human_same; eauto|]. injection E as <-.
        destruct V as (A & B & C). split; auto. split; auto. split; auto. apply (all_skip _ s); auto. intros b I Sb. rewrite <- Sb, (tw_get _ _ A I) in G. discriminate.
      - split.
        + split; auto. split; auto. intros b I _ N. destruct N. unfold starts_of. now apply in_map.
        + intros c Ic Ec. apply (A1 c); auto. }
    destruct Q as (T2 & R2 & A2).
    assert (st3 = st2) as ->.
    { eapply each0_same'; [|exact H3]. intros b I. unfold func_human. destruct (b_type b) eqn:Tb; auto. cbn [btype_beq negb orb].
      pose proof (A2 b I Tb (fun x => x)) as P. destruct (b_pair b); [reflexivity|congruence]. }
    assert (st4 = st2) as ->.
    { eapply each1_same; [|exact H4]. intros b I. unfold func_new. rewrite (tw_b _ T2) in I. destruct (b_type b) eqn:Tb; auto. cbn [btype_beq negb orb].
      pose proof (A2 b I Tb (fun x => x)) as P. destruct (b_pair b); [reflexivity|congruence]. }
    auto.
  Qed.
  (** ** What is left out and what is compared *)
  Hypothesis (NoUnlink : go_unlink o = []).
  (** The files may differ in what the second is marked with. *)
  Record tv (rest : list nat) (st : gst) : Prop := {
    tv_l : g_lines (s_1 st) = g_lines (s_0 st);
    tv_core0 : map core (g_blocks (s_0 st)) = map core (g_blocks F); tv_core1 : map core (g_blocks (s_1 st)) = map core (g_blocks F);
    tv_pair0 : forall b, In b (g_blocks (s_0 st)) -> b_type b = BFunc -> b_pair b = Some (b_start b);
    tv_pair : forall b, In b (g_blocks (s_1 st)) -> b_type b = BFunc \/ b_type b = BVar -> b_pair b = Some (b_start b);
    tv_unlink : forall b, In b (g_blocks (s_1 st)) -> b_unlink b = false;
    tv_ignore : forall b, In b (g_blocks (s_1 st)) -> b_type b = BFunc -> ~ In (b_start b) rest -> b_ignore b = true;
    tv_ren : eqren st }.
  Lemma core_starts f : map core (g_blocks f) = map core (g_blocks F) -> starts_of f = starts_of F.
  Proof. unfold starts_of. generalize (g_blocks F). generalize (g_blocks f). induction l as [|b l IH]; intros [|c l'] C; try discriminate C; auto.
    destruct (cons_core _ _ _ _ C) as (A & B). cbn [map]. rewrite (IH _ B). f_equal. apply (alike_fields _ _ A). Qed.
  Lemma core_twin f g b : map core (g_blocks f) = map core (g_blocks F) -> map core (g_blocks g) = map core (g_blocks F) ->
    In b (g_blocks g) -> exists c, getb f (b_start b) = Some c /\ alike c b.
  Proof.
    intros Cf Cg I. assert (C : map core (g_blocks g) = map core (g_blocks f)) by congruence. destruct (map_core_in _ _ _ C I) as (c & J & A).
    exists c. destruct (alike_fields _ _ A) as (S & _). rewrite S. split; [|now symmetry]. apply getb_of; auto. rewrite (core_starts f Cf). exact nodupF.
  Qed.
  Lemma tv_ignored rest rest' b st : tv rest st -> In b (g_blocks (s_1 st)) -> (forall s, In s rest -> s = b_start b \/ In s rest') ->
    forall st', s_0 st' = s_0 st \/ (exists r, s_0 st' = with_ren (s_0 st) r) ->
    (exists r, s_1 st' = updb (b_start b) set_ignore (with_ren (s_1 st) r)) -> eqren st' -> tv rest' st'.
  Proof.
    intros [L C0 C1 P0 P U G R] I Sub st' E0 (r1 & E1) R'. assert (X0 : g_blocks (s_0 st') = g_blocks (s_0 st) /\ g_lines (s_0 st') = g_lines (s_0 st)).
    { destruct E0 as [->|(r & ->)]; auto. }
    destruct X0 as (B0 & L0).
    assert (K : forall c, In c (g_blocks (s_1 st')) -> exists d, In d (g_blocks (s_1 st)) /\ alike c d /\ b_pair c = b_pair d /\ b_unlink c = b_unlink d
      /\ ((b_start d = b_start b /\ b_ignore c = true) \/ (b_start d <> b_start b /\ b_ignore c = b_ignore d))).
    { intros c J. rewrite E1 in J. cbn [updb with_blocks with_ren g_blocks] in J. apply in_map_iff in J as (d & <- & J). exists d. split; auto.
      destruct (Nat.eqb (b_start d) (b_start b)) eqn:Q; [apply Nat.eqb_eq in Q|apply Nat.eqb_neq in Q]; repeat split; auto. }
    split; rewrite ?B0, ?L0; auto.
    - rewrite E1. exact L.
    - rewrite E1. cbn [updb with_blocks with_ren g_blocks]. rewrite <- C1, map_map. apply map_ext. intros c. now destruct (Nat.eqb _ _).
    - intros c J Ty. destruct (K c J) as (d & Jd & A & Pd & _). destruct (alike_fields _ _ A) as (S & _ & _ & _ & _ & T & _). rewrite Pd, S. apply P; auto. now rewrite <- T.
    - intros c J. destruct (K c J) as (d & Jd & _ & _ & Ud & _). rewrite Ud. now apply U.
    - intros c J Ty N. destruct (K c J) as (d & Jd & A & _ & _ & [(_ & Q)|(Q1 & Q2)]); auto. rewrite Q2.
      destruct (alike_fields _ _ A) as (S & _ & _ & _ & _ & T & _). apply G; auto; [congruence|]. intros In1. destruct (Sub _ In1); congruence.
  Qed.
  Lemma func_config_same rest b st st' : In b (g_blocks (s_1 st)) -> tv rest st -> func_config o b st = Ok st' -> tv rest st'.
  Proof.
    intros I V H. unfold func_config in H. destruct (b_type b) eqn:Tb; cbn [btype_beq negb] in H; try (injection H as <-; exact V).
    rewrite (tv_pair _ _ V b I (or_introl Tb)) in H. bind H as st1 E1. rewrite NoUnlink in H. cbn [in_syms_list existsb] in H. injection H as <-.
    destruct (in_syms_list _ _ _ _); [|now injection E1 as <-].
    destruct (core_twin (s_0 st) (s_1 st) b (tv_core0 _ _ V) (tv_core1 _ _ V) I) as (c & G & A). rewrite G in E1. injection E1 as <-.
    destruct (alike_fields _ _ A) as (_ & _ & N & _). eapply (tv_ignored rest rest b st V I); auto.
    - right. eexists. reflexivity.
    - eexists. reflexivity.
    - intros n. cbn. rewrite !find_del. unfold name. rewrite N. destruct (same _ n); auto. apply (tv_ren _ _ V).
  Qed.
  Lemma func_changed_same s rest x x' : tv (s :: rest) (fst x) -> func_changed o s x = Ok x' -> tv rest (fst x').
  Proof.
    destruct x as [st na]. cbn [fst]. intros V H. unfold func_changed in H.
    assert (Skip : (forall b, In b (g_blocks (s_1 st)) -> b_start b = s -> b_type b = BFunc -> b_ignore b = true) -> tv rest st).
    { intros K. destruct V as [L C0 C1 P0 P U G R]. split; auto. intros b I T N. destruct (Nat.eq_dec (b_start b) s); auto. apply G; auto. intros [J|J]; congruence. }
    destruct (getb (s_1 st) s) as [b|] eqn:G.
    2:{ injection H as <-. apply Skip. intros b I Sb. exfalso. rewrite <- Sb in G. rewrite getb_of in G; auto; [discriminate|].
        rewrite (core_starts _ (tv_core1 _ _ V)). exact nodupF. }
    destruct (getb_in _ _ _ G) as (I & Sb).
    assert (One : forall c, In c (g_blocks (s_1 st)) -> b_start c = s -> c = b).
    { intros c J Sc. apply (nodup_start (g_blocks (s_1 st))); auto; [|congruence]. fold (starts_of (s_1 st)). rewrite (core_starts _ (tv_core1 _ _ V)). exact nodupF. }
    destruct (negb _ || b_ignore b) eqn:Q.
    { injection H as <-. apply Skip. intros c J Sc Tc. rewrite (One c J Sc) in *. rewrite Tc in Q. exact Q. }
    apply orb_false_iff in Q as (Q1 & Q2). assert (Tb : b_type b = BFunc) by (destruct (b_type b); try discriminate Q1; reflexivity).
    rewrite (tv_pair _ _ V b I (or_introl Tb)) in H. 
    destruct (core_twin (s_0 st) (s_1 st) b (tv_core0 _ _ V) (tv_core1 _ _ V) I) as (c & Gc & A). rewrite Gc in H.
    destruct (alike_fields _ _ A) as (S & E & N & _). rewrite cmp_same in H; auto; [|apply V|apply V]. cbn [rbind negb] in H.
    unfold name in H. rewrite N in H. rewrite ren0_id in H. cbn [rbind] in H. rewrite ren1_id in H. cbn [rbind] in H. injection H as <-. cbn [fst].
    eapply (tv_ignored (s :: rest) rest b st V I).
    - intros z [<-|J]; auto.
    - right. eexists. reflexivity.
    - rewrite <- Sb. eexists. reflexivity.
    - intros n. cbn. rewrite !find_del. destruct (same _ n); auto. apply (tv_ren _ _ V).
  Qed.
  Lemma analyze_func_same st st' : tw st -> fr st ->
    analyze_func o st = Ok st' -> tv [] st'.
  Proof.
    intros T R H. unfold analyze_func in H. bind H as st1 E1. bind H as st2 E2. bind H as st3 E3. bind H as st4 E4. bind H as st5 E5. bind H as x E6.
    destruct (snd x); [discriminate|]. injection H as <-. destruct (passes_same _ _ _ _ _ T R E1 E2 E3 E4) as (T4 & (R4 & V4) & A4).
    assert (K4 : tv (starts_of F) st4).
    { destruct T4 as [B L LF C P U]. split; auto; try (rewrite B); auto.
      - intros b I Tb. pose proof (A4 b I Tb (fun x => x)). destruct (P b I); congruence.
      - intros b I [Tb|Tb]; [|now apply V4]. pose proof (A4 b I Tb (fun x => x)). destruct (P b I); congruence.
      - intros b I Tb N. exfalso. apply N. rewrite <- (core_starts _ C). unfold starts_of. now apply in_map. }
    assert (K5 : tv (starts_of F) st5).
    { unfold each1 in E5. eapply (rfold_inv _ (fun _ s => tv (starts_of F) s)) in E5; [exact E5| |exact K4].
      intros s r s1 s2 V Q. destruct (getb (s_1 s1) s) as [b|] eqn:G; [|now injection Q as <-]. apply getb_in in G as (I & _). eapply func_config_same; eauto. }
    rewrite (core_starts _ (tv_core1 _ _ K5)) in E6.
    eapply (rfold_inv _ (fun l s => tv l (fst s))) in E6; [exact E6| |exact K5]. intros s r s1 s2 V Q. eapply func_changed_same; eauto.
  Qed.
End Same.

Lemma tame_hname f : tame f -> forall b, In b (g_blocks f) -> b_type b = BFunc -> b_auto b = true -> find_by_hname (g_blocks f) (hname b) = Some b.
Proof.
  intros T b I Tb Ab. apply in_split in I as (u & v & E). pose proof (tm_func _ T b u v E Tb Ab) as K. rewrite E. clear E.
  induction u as [|c u IH]; unfold find_by_hname; cbn [app find].
  - unfold hname. now rewrite same_refl.
  - rewrite (proj2 (same_false _ _)); [apply IH; intros d J; apply K; now right|]. apply K. now left.
Qed.
Theorem same_files a o f0 f1 st' : ready a f0 -> ready a f1 -> g_lines f1 = g_lines f0 -> g_blocks f1 = g_blocks f0 -> go_unlink o = [] -> tame f0 ->
  analyze o (start f0 f1) = Ok st' ->
  (forall b1, In b1 (g_blocks (s_1 st')) -> b_type b1 = BFunc \/ b_type b1 = BVar ->
    b_pair b1 = Some (b_start b1) /\ b_unlink b1 = false /\ (b_type b1 = BFunc -> b_ignore b1 = true))
  /\ (forall b0 b1, joined st' b0 b1 -> b_type b0 = BFunc -> b_type b1 = BFunc).
Proof.
  intros R0 R1 L B U Tm H. unfold analyze in H. pose proof (tm_var _ Tm) as Vn. pose proof (tame_hname _ Tm) as Fh.
  assert (Vd : forall b c, In b (g_blocks f0) -> In c (g_blocks f0) -> b_type b = BVar -> b_type c = BVar -> b_auto b = true -> hname b = hname c ->
    starts (name c) desc_str = true -> starts (name b) desc_str = true).
  { intros b c Ib Ic Tb Tc Ab Eh Q. rewrite starts_spec in *. exact (tm_desc _ Tm b c Ib Ic Tb Tc Ab Eh Q). } bind H as st1 E1. bind H as st2 E2.
  pose proof (rd_fresh _ _ R0) as Fr. rewrite Forall_forall in Fr.
  assert (T : tw f0 (start f0 f1)).
  { split; auto; intros b I; destruct (Fr b I) as (A1 & A2 & A3 & A4 & _); auto. }
  destruct (analyze_var_same o f0 (rd_order _ _ R0) (rd_names _ _ R0) Vn Vd Fh (start f0 f1) st1 T (conj (rd_ren _ _ R0) (rd_ren _ _ R1)) E1) as (T1 & N1 & V1).
  assert (V : tv f0 [] st2).
  { apply (analyze_func_same o f0 (rd_order _ _ R0) (rd_names _ _ R0) (ready_func_names _ _ R0) Fh U st1); auto. split; auto. now apply noren_eqren. }
  assert (O0 : in_order (length (g_lines f0)) (g_blocks (s_0 st2))) by (eapply in_order_core; [|exact (rd_order _ _ R0)]; apply V).
  assert (O1 : in_order (length (g_lines f0)) (g_blocks (s_1 st2))) by (eapply in_order_core; [|exact (rd_order _ _ R0)]; apply V).
  destruct (analyze_other_spec _ _ _ _ _ O0 O1 H) as ([_ K0 _ _ _ _] & [Or K _ _ _ _] & _).
  assert (I2 : forall b1, In b1 (g_blocks (s_1 st')) -> b_type b1 <> BOther -> In b1 (g_blocks (s_1 st2))).
  { intros b1 I N. apply (in_filter_not_other (s_1 st2)). rewrite <- K. apply in_filter_not_other. now split. }
  split.
  - intros b1 I Ty. assert (J : In b1 (g_blocks (s_1 st2))) by (apply I2; auto; destruct Ty; congruence).
    split; [now apply (tv_pair _ _ _ V)|]. split; [now apply (tv_unlink _ _ _ V)|]. intros Tf. apply (tv_ignore _ _ _ V); auto.
  - intros b0 b1 (I0 & I1 & P) Tf.
    assert (J0 : In b0 (g_blocks (s_0 st2))).
    { apply (in_filter_not_other (s_0 st2)). rewrite <- K0. apply in_filter_not_other. split; auto. congruence. }
    pose proof (tv_pair0 _ _ _ V b0 J0 Tf) as P'.
    destruct (core_twin f0 (rd_order _ _ R0) (s_1 st2) (s_0 st2) b0 (tv_core1 _ _ _ V) (tv_core0 _ _ _ V) J0) as (c & G & A).
    destruct (alike_fields _ _ A) as (S & _ & _ & _ & _ & Y & _). apply getb_in in G as (Ic & _).
    assert (c = b1) as <-; [|congruence]. apply (nodup_start (g_blocks (s_1 st'))); auto; [eapply in_order_starts; eauto| |congruence].
    apply (in_filter_not_other (s_1 st')). rewrite K. apply in_filter_not_other. split; auto. congruence.
Qed.

(** ** The output *)
Lemma parts_impl (P Q : cblock -> Z -> Z -> list Z -> Prop) bs n n' p : (forall b n n' p, In b bs -> P b n n' p -> Q b n n' p) -> parts P bs n n' p -> parts Q bs n n' p.
Proof.
  intros K H. induction H as [|b bs n n1 n2 p q A H IH]; [constructor|]. econstructor; [apply K; [now left|exact A]|]. apply IH. intros; apply K; auto; now right.
Qed.
Lemma parts_none bs n n' p : parts (fun _ n n' p => n' = n /\ p = []) bs n n' p -> n' = n /\ p = [].
Proof. induction 1 as [|b bs n n1 n2 p q (A & B) H (C & D)]; auto. subst. auto. Qed.
Theorem same_files_output a o buf i0 i1 out : gensrc a o buf i0 i1 = Ok out ->
  exists f0 f1 st, run_of a o buf i0 i1 f0 f1 st
    /\ (g_lines f1 = g_lines f0 -> g_blocks f1 = g_blocks f0 -> go_unlink o = [] -> tame f0 ->
        exists h p a0 a1 x m, out = h ++ p ++ a0 ++ a1 ++ x
          /\ header_part st h /\ parts (as_it_was o st) (g_blocks (s_0 st)) 0 0 p
          /\ parts (attr0_part st) (g_blocks (s_0 st)) 0 0 a0
          /\ parts (attr1_part st m) (g_blocks (s_1 st)) 0 0 a1
          /\ parts (other_part st) (g_blocks (s_1 st)) 0 0 x).
Proof.
  intros H. destruct (gensrc_spec _ _ _ _ _ _ H) as (f0 & f1 & st & R & R0 & R1 & _ & _ & W). exists f0, f1, st. split; auto.
  intros L B U T. destruct (same_files a o f0 f1 st R0 R1 L B U T (ru_an _ _ _ _ _ _ _ _ R)) as (K & K2).
  destruct W as (h & p & q & u & a0 & a1 & x & n1 & n2 & n3 & m & Eo & Hh & Hp & Hq & _ & Hu & Ha0 & Ha1 & Hx).
  assert (P0 : parts (as_it_was o st) (g_blocks (s_0 st)) 0 n1 p).
  { eapply parts_impl; [|exact Hp]. intros b n n' w I X. unfold original_part in X. unfold as_it_was.
    destruct (b_type b) eqn:Tb; try exact X.
    all: destruct X as (g & t & q' & Ew & G & Pr & [(b1 & c & Tf & J & Ig & _)|(_ & En & Eq)]);
      [|subst q'; rewrite app_nil_r in Ew; split; [exact En|]; exists g, t; auto].
    all: try discriminate Tf.
    exfalso. pose proof (K2 b b1 J Tb) as T1. destruct J as (J0 & J1 & Pj). destruct (K b1 J1) as (_ & _ & Z); auto. rewrite (Z T1) in Ig. discriminate. }
  assert (N1 : n1 = 0).
  { clear - P0. remember 0 as z. induction P0 as [|b bs n n1 n2 p q (A & _) H IH]; subst; auto. }
  subst n1.
  assert (Q0 : n2 = 0 /\ q = []).
  { apply (parts_none (g_blocks (s_1 st))). eapply parts_impl; [|exact Hq]. intros b n n' w I X. unfold new_part in X.
    destruct (b_type b) eqn:Tb; try (destruct (b_pair b); exact X).
    all: destruct (K b I) as (Pb & _); auto; rewrite Pb in X; exact X. }
  destruct Q0 as (-> & ->).
  assert (U0 : n3 = 0 /\ u = []).
  { apply (parts_none (g_blocks (s_1 st))). eapply parts_impl; [|exact Hu]. intros b n n' w I X. unfold unlinked_part in X.
    destruct (b_unlink b) eqn:Ub; auto. destruct (b_type b) eqn:Tb; try exact X. destruct (K b I) as (_ & Z & _); auto. congruence. }
  destruct U0 as (-> & ->). exists h, p, a0, a1, x, m. rewrite Eo. repeat (split; auto).
Qed.
