(** Proofs about the table of renames and renaming of lines. *)
From Coq Require Import String Sorting.Sorted.
From Verif Require Import Base BaseProofs StorageModel TextModel TextSpec TextProofs TextLines TextStmt
  RbModel RbSpec RbProofs RenameModel RenameSpec.
Open Scope list_scope.

(** ** The table *)
Lemma same_dec (a b : text) : same a b = if text_eq_dec a b then true else false.
Proof.
  destruct (text_eq_dec a b) as [->|N]; [apply same_refl|]. apply not_true_iff_false. now rewrite same_spec.
Qed.
Lemma find_cons r s d n : rename_find ((s, d) :: r) n = if same s n then Some d else rename_find r n.
Proof. unfold rename_find. cbn. destruct (same s n); reflexivity. Qed.
Lemma find_del r src n : rename_find (rename_del r src) n = if same src n then None else rename_find r n.
Proof.
  induction r as [|[s d] r IH]; [cbn; destruct (same src n); reflexivity|].
  unfold rename_del. cbn [filter fst]. fold (rename_del r src).
  rewrite find_cons. destruct (same s src) eqn:E; cbn [negb].
  - rewrite IH. apply same_spec in E; subst. destruct (same src n); reflexivity.
  - rewrite find_cons, IH. destruct (same s n) eqn:E2; auto. apply same_spec in E2; subst.
    destruct (same src n) eqn:E3; auto. apply same_spec in E3; subst. rewrite same_refl in E. discriminate.
Qed.

(** One operation on the list and on the tree *)
Definition list_step (r : res rtab) (o : rop) : res rtab :=
  do t <- r; match o with RAdd s d => rename_add t s d | RDel s => Ok (rename_del t s) end.
Definition tree_op (r : res (tree (text * text))) (o : rop) : res (tree (text * text)) :=
  do t <- r; match o with RAdd s d => tree_add t s d | RDel s => tree_del t s end.

Definition agree {T} (find : T -> text -> option text) (inv : T -> Prop) (r : res T) (m : option rmap) : Prop :=
  match r, m with
  | Ok t, Some m => inv t /\ forall n, find t n = m n
  | Fatal, None => True
  | _, _ => False
  end.
Lemma list_step_agree r m o : agree rename_find (fun _ => True) r m -> agree rename_find (fun _ => True) (list_step r o) (map_step m o).
Proof.
  unfold agree. destruct r as [t| | |]; destruct m as [m|]; try tauto.
  intros (_ & H). cbn [list_step rbind map_step]. destruct o as [s d|s].
  - unfold rename_add. rewrite !same_dec. destruct (text_eq_dec s d); [auto|].
    rewrite H. destruct (m s) as [d'|] eqn:E.
    + rewrite same_dec. destruct (text_eq_dec d' d); auto.
    + split; auto. intros n0. rewrite find_cons, same_dec.
      destruct (text_eq_dec s n0), (text_eq_dec n0 s); try congruence. auto.
  - split; auto. intros n. rewrite find_del, same_dec. destruct (text_eq_dec s n), (text_eq_dec n s); try congruence. auto.
Qed.
Lemma list_run_agree_from : forall ops r m, agree rename_find (fun _ => True) r m ->
  agree rename_find (fun _ => True) (fold_left list_step ops r) (fold_left map_step ops m).
Proof. induction ops as [|o ops IH]; intros r m H; cbn [fold_left]; auto. apply IH. now apply list_step_agree. Qed.
Lemma list_run_agree ops : agree rename_find (fun _ => True) (fold_left list_step ops (Ok [])) (map_run ops).
Proof. apply list_run_agree_from. cbn. auto. Qed.

(** The tree: elements with distinct names, ordered by kpstrcmp *)
Section Tree.
Hypothesis ord : orders kpstrcmp (fun _ => True).
Notation tgood := (good (text * text) text fst kpstrcmp (fun _ => True)).
Lemma tree_find_in t n d : tgood t -> (tree_find t n = Some d <-> In (n, d) (elements t)).
Proof.
  intros G. unfold tree_find. pose proof (search_good _ _ fst kpstrcmp _ ord t n G I) as Q.
  change (search rename_cmp t n) with (search (cmp fst kpstrcmp) t n).
  destruct (search (cmp fst kpstrcmp) t n) as [[n' d']|].
  - destruct (proj1 (Q _) eq_refl) as (I1 & E). cbn in E; subst n'. cbn [snd]. split.
    + intros [= ->]. exact I1.
    + intros I2. specialize (Q (n, d)). destruct Q as (_ & Q). specialize (Q (conj I2 eq_refl)). congruence.
  - split; [discriminate|]. intros I2. destruct (Q (n, d)) as (_ & Q2). specialize (Q2 (conj I2 eq_refl)). discriminate.
Qed.
Lemma tree_find_none t n : tgood t -> (tree_find t n = None <-> forall d, ~ In (n, d) (elements t)).
Proof.
  intros G. split.
  - intros H d I1. apply tree_find_in in I1; auto. congruence.
  - intros H. destruct (tree_find t n) as [d|] eqn:E; auto. apply tree_find_in in E; auto. destruct (H _ E).
Qed.
Lemma opt_ext (a b : option text) : (forall d, a = Some d <-> b = Some d) -> a = b.
Proof. intros H. destruct a as [x|]; [symmetry; now apply H|]. destruct b as [y|]; auto. now apply H. Qed.
Lemma tree_step_agree r m o : agree tree_find tgood r m -> agree tree_find tgood (tree_op r o) (map_step m o).
Proof.
  unfold agree. destruct r as [t| | |]; destruct m as [m|]; try tauto.
  intros (G & H). cbn [tree_op rbind map_step]. destruct o as [s d|s].
  - unfold tree_add. rewrite !same_dec. destruct (text_eq_dec s d); [auto|].
    rewrite H. destruct (m s) as [d'|] eqn:E.
    + rewrite same_dec. destruct (text_eq_dec d' d); auto.
    + pose proof (insert_good _ _ fst kpstrcmp _ ord t (s, d) G I) as J.
      cbn [fst] in J.
      assert (N : search (cmp fst kpstrcmp) t s = None).
      { specialize (H s). unfold tree_find in H. change (search rename_cmp t s) with (search (cmp fst kpstrcmp) t s) in H.
        destruct (search (cmp fst kpstrcmp) t s); congruence. }
      rewrite N in J. destruct J as (t' & J1 & J2 & p & q & E1 & E2).
      change (insert rename_cmp t (s, d) s) with (insert (cmp fst kpstrcmp) t (s, d) s). rewrite J1. split; auto.
      intros k. apply opt_ext. intros x. rewrite tree_find_in, E2 by auto.
      assert (K : In (k, x) (p ++ (s, d) :: q) <-> (k, x) = (s, d) \/ In (k, x) (elements t)).
      { rewrite E1, !in_app_iff. cbn. intuition. }
      rewrite K, <- tree_find_in, H by auto. destruct (text_eq_dec k s) as [->|Nk].
      * rewrite E. split; [intros [X|X]; [injection X as ->; reflexivity|discriminate]|intros X; injection X as ->; auto].
      * split; [intros [[= ? ?]|]; congruence|auto].
  - unfold tree_del. rewrite H.
    pose proof (erase_good _ _ fst kpstrcmp _ ord t s G I) as J.
    change (erase rename_cmp t s) with (erase (cmp fst kpstrcmp) t s).
    destruct (m s) as [d|] eqn:E.
    + pose proof E as E0. rewrite <- H in E0. pose proof E0 as E3.
      unfold tree_find in E0. change (search rename_cmp t s) with (search (cmp fst kpstrcmp) t s) in E0.
      destruct (search (cmp fst kpstrcmp) t s) as [y|] eqn:Es; [|discriminate].
      destruct J as (t' & J1 & J2 & p & q & E1 & E2). rewrite J1. split; auto.
      apply (proj1 (search_good _ _ fst kpstrcmp _ ord t s G I y)) in Es as (_ & Ey). destruct y as [s' d']. cbn in Ey, E0. subst s'. injection E0 as ->.
      intros k. apply opt_ext. intros x. rewrite tree_find_in, E2 by auto.
      assert (SS : StronglySorted (RbProofs.lt (text * text) text fst kpstrcmp) (elements t)) by apply G.
      rewrite E1 in SS.
      assert (ND : forall x, ~ In (s, x) (p ++ q)).
      { intros y I1. apply (ss_app _ _ p ((s, d) :: q)) in SS as (_ & S2 & S3). 
        apply in_app_iff in I1 as [I1|I1].
        - specialize (S3 _ _ I1 (or_introl eq_refl)). unfold RbProofs.lt in S3. cbn in S3.
          assert (kpstrcmp s s = 0) by (apply (o_eq _ _ _ ord); auto). lia.
        - inversion S2 as [|? ? _ F]; subst. rewrite Forall_forall in F. specialize (F _ I1).
          unfold RbProofs.lt in F. cbn in F. assert (kpstrcmp s s = 0) by (apply (o_eq _ _ _ ord); auto). lia. }
      destruct (text_eq_dec k s) as [->|Nk].
      * split; [intros I1; destruct (ND _ I1)|discriminate].
      * rewrite <- H, tree_find_in, E1 by auto. rewrite !in_app_iff. cbn. intuition congruence.
    + split; auto. intros n. rewrite H. destruct (text_eq_dec n s); congruence.
Qed.
Lemma tree_run_agree_from : forall ops r m, agree tree_find tgood r m ->
  agree tree_find tgood (fold_left tree_op ops r) (fold_left map_step ops m).
Proof. induction ops as [|o ops IH]; intros r m H; cbn [fold_left]; auto. apply IH. now apply tree_step_agree. Qed.
Lemma tree_run_agree ops : agree tree_find tgood (fold_left tree_op ops (Ok Leaf)) (map_run ops).
Proof. apply tree_run_agree_from. split; [apply good_leaf|reflexivity]. Qed.
End Tree.

(** ** Tokens of two lines *)
Lemma tokens_match_spec r0 r1 t0 t1 :
  tokens_match r0 r1 t0 t1 = true <-> corresponds (rename_find r0) (rename_find r1) t0 t1.
Proof.
  unfold tokens_match, corresponds. destruct (rename_find r0 t0) as [d0|], (rename_find r1 t1) as [d1|];
    rewrite ?orb_true_iff, ?andb_true_iff, ?same_spec.
  - split.
    + intros [->|(-> & ->)]; [right; right; left; eauto|right; right; right; auto].
    + intros [(? & _)|[(_ & ?)|[(d & [= ->] & [= ->])|([= ->] & [= ->])]]]; try discriminate; auto.
  - split; [intros ->; auto|]. intros [(? & _)|[([= ->] & _)|[(d & _ & ?)|(_ & ?)]]]; try discriminate; auto.
  - split; [discriminate|]. intros [(_ & ? & _)|[(? & _)|[(d & ? & _)|(? & _)]]]; discriminate.
  - split; [auto|]. intros [(_ & _ & ?)|[(? & _)|[(d & ? & _)|(? & _)]]]; try discriminate; auto.
Qed.

(** The tokens as a list of texts: [toks] of a pointer *)
Inductive toks : option text -> list text -> Prop :=
| tk_none : toks None []
| tk_some : forall s t s' ts, get_token (Some s) = (t, s') -> toks s' ts -> toks (Some s) (txt t :: ts).
Lemma toks_det s ts : toks s ts -> forall ts', toks s ts' -> ts = ts'.
Proof.
  induction 1 as [|s t s' ts E H IH]; intros ts' H'; inversion H'; subst; auto. 
  rewrite E in *. match goal with H : (_, _) = (_, _) |- _ => injection H as <- <- end. f_equal; auto.
Qed.
Lemma toks_fuel n s : forall ts, tokens_fuel n s = Ok ts -> toks s (map txt ts).
Proof.
  revert s; induction n as [|n IH]; intros [s|] ts H; cbn [tokens_fuel] in H; try discriminate;
    try (injection H as <-; constructor).
  destruct (get_token (Some s)) as [t s'] eqn:E. destruct (tokens_fuel n s') as [r| | |] eqn:Er; cbn [rbind] in H; try discriminate.
  injection H as <-. cbn [map]. econstructor; eauto.
Qed.
Lemma has_tokens_toks (s : text) ts : has_tokens s ts <-> toks (Some s) ts.
Proof.
  destruct (tokens_spec s) as (us & l & last & H1 & H2 & H3 & H4).
  assert (E : map txt us = match l with [] => [[]] | _ => map snd l end).
  { rewrite H3. destruct (at_end (skip_blanks s)); [now rewrite (proj1 H4 eq_refl)|].
    destruct l; auto. destruct H4 as (_ & H4). discriminate (H4 eq_refl). }
  pose proof (toks_fuel _ _ _ H1) as T. split.
  - intros (l' & last' & P & ->). destruct (pieces_det _ _ _ H2 _ _ P) as (-> & ->). rewrite E in T. exact T.
  - intros T'. rewrite (toks_det _ _ T' _ T), E. exists l, last. auto.
Qed.
Lemma toks_exist (s : text) : exists ts, toks (Some s) ts.
Proof.
  destruct (tokens_spec s) as (us & l & last & H1 & _). eexists. exact (toks_fuel _ _ _ H1).
Qed.
Lemma toks_cmp r0 r1 : forall n s0 s1 ts0 ts1, toks s0 ts0 -> toks s1 ts1 ->
  (length ts0 <= n)%nat ->
  exists b, strcmp_after_rename_fuel n r0 r1 s0 s1 = Ok b
    /\ (b = false <-> Forall2 (corresponds (rename_find r0) (rename_find r1)) ts0 ts1).
Proof.
  induction n as [|n IH]; intros s0 s1 ts0 ts1 T0 T1 L.
  - destruct ts0; [|cbn in L; lia]. inversion T0; subst.
    inversion T1; subst; cbn; eexists; split; try reflexivity.
    + split; auto.
    + split; [discriminate|]. intros F; inversion F.
  - inversion T0 as [|x0 t0 s0' q0 E0 Q0]; subst; inversion T1 as [|x1 t1 s1' q1 E1 Q1]; subst; cbn [strcmp_after_rename_fuel].
    + exists false. split; auto. split; auto.
    + exists true. split; auto. split; [discriminate|]. intros F; inversion F.
    + exists true. split; auto. split; [discriminate|]. intros F; inversion F.
    + rewrite E0, E1. destruct (tokens_match r0 r1 (txt t0) (txt t1)) eqn:M.
      * cbn in L. destruct (IH s0' s1' q0 q1) as (b & -> & Hb); auto; [lia|]. exists b. split; auto. rewrite Hb.
        apply tokens_match_spec in M. split; intros F; [constructor; auto|inversion F; auto].
      * exists true. split; auto. split; [discriminate|]. intros F. inversion F; subst.
        assert (X : tokens_match r0 r1 (txt t0) (txt t1) = true) by (apply tokens_match_spec; auto). congruence.
Qed.
Lemma toks_len : forall n (s : text) ts, (length s <= n)%nat -> toks (Some s) ts -> (length ts <= Datatypes.S n)%nat.
Proof.
  induction n as [|n IH]; intros s ts L T; inversion T as [|x t s' q E Q]; subst; cbn [length].
  - destruct s; [|cbn in L; lia]. destruct s' as [s'|]; [|inversion Q; cbn; lia].
    apply get_token_len in E. cbn in E. lia.
  - destruct s' as [s'|]; [|inversion Q; cbn; lia]. pose proof (get_token_len _ _ _ E). 
    specialize (IH s' q ltac:(lia) Q). lia.
Qed.
Theorem strcmp_after_rename_spec r0 r1 (s0 s1 : text) : exists b,
  strcmp_after_rename r0 r1 s0 s1 = Ok b
  /\ (b = false <-> exists ts0 ts1, has_tokens s0 ts0 /\ has_tokens s1 ts1
        /\ Forall2 (corresponds (rename_find r0) (rename_find r1)) ts0 ts1).
Proof.
  destruct (toks_exist s0) as (ts0 & T0), (toks_exist s1) as (ts1 & T1).
  destruct (toks_cmp r0 r1 (Datatypes.S (length s0)) (Some s0) (Some s1) ts0 ts1 T0 T1) as (b & E & Hb).
  { eapply toks_len; eauto. }
  exists b. split; [exact E|]. rewrite Hb. split.
  - intros F. exists ts0, ts1. rewrite !has_tokens_toks. auto.
  - intros (us0 & us1 & U0 & U1 & F). rewrite has_tokens_toks in U0, U1.
    rewrite (toks_det _ _ T0 _ U0), (toks_det _ _ T1 _ U1). exact F.
Qed.

(** ** Renaming a line *)
Lemma blanks_split s : s = blanks s ++ skip_blanks s.
Proof. induction s as [|c s IH]; cbn; auto. destruct (isblank c); cbn; [now f_equal|reflexivity]. Qed.
Lemma blanks_app g s : blank g -> skip_blanks s = s -> blanks (g ++ s) = g.
Proof.
  intros B H. induction B as [|c g Hc B IH]; cbn [app].
  - destruct s as [|c s]; auto. cbn in H |- *. destruct (isblank c) eqn:E; auto.
    exfalso. assert (L : (length (skip_blanks s) <= length s)%nat).
    { clear. induction s as [|x s IH]; cbn; auto. destruct (isblank x); cbn; lia. }
    rewrite H in L. cbn in L. lia.
  - cbn [blanks]. apply isblank_spec in Hc. rewrite Hc. now f_equal.
Qed.
Definition rn (r : rtab) (t : text) : text := match rename_find r t with Some d => upto_nul d | None => t end.
Lemma do_rename_pieces r : forall l n g1 (s : text) last, pieces delims (g1 ++ s) l last -> one_line (g1 ++ s) ->
  skip_blanks s = s -> blank g1 -> l <> [] -> (length l <= n)%nat ->
  do_rename_fuel n r (Some s)
  = Ok (glue (match l with (g, t) :: q => ([], rn r t) :: map (fun p => (fst p, rn r (snd p))) q | [] => [] end) last).
Proof.
  intros l. induction l as [|[g t] l IH]; intros n g1 s last P O Hs Bg1 Nl Ln; [congruence|].
  destruct n as [|n]; [cbn in Ln; lia|]. cbn [length] in Ln.
  inversion P as [|g0 t0 r0 l0 last0 B T N Sh P' E]; subst.
  assert (D1 : In 32 delims) by (unfold delims; simpl; auto).
  assert (D2 : In 9 delims) by (unfold delims; simpl; auto).
  assert (Es : s = t ++ r0).
  { apply (f_equal skip_blanks) in E. rewrite (skip_blanks_blank g1 s), Hs, (skip_blanks_blank g (t ++ r0)) in E; auto.
    rewrite (shape_not_blank delims t r0) in E; auto. }
  cbn [do_rename_fuel]. rewrite Es.
  change (t ++ r0) with ([] ++ t ++ r0). unfold get_token. rewrite get_token_shape; auto; [|constructor].
  cbn [app txt rest]. fold (rn r t).
  assert (Bl : blanks (t ++ r0) = []).
  { rewrite <- Es. pose proof (blanks_app [] s (Forall_nil _) Hs) as X. exact X. }
  rewrite Bl. cbn [app].
  assert (O0 : one_line r0) by (rewrite <- E in O; rewrite !one_line_app in O; tauto).
  destruct (skip_blanks_split r0) as (g2 & Eg2 & Bg2).
  assert (Bg2' : blanks r0 = g2).
  { rewrite Eg2. apply blanks_app; auto. apply skip_blanks_idem. }
  rewrite Bg2'. clear Bg2'.
  destruct (at_end (skip_blanks r0)) eqn:Ea.
  - assert (Ee : ends (skip_blanks r0)) by now apply at_end_spec.
    assert (Br : blank r0) by now apply blank_ends.
    assert (E0 : skip_blanks r0 = []).
    { apply ends_one_line; auto. rewrite Eg2 in O0. apply one_line_app in O0. tauto. }
    rewrite E0, app_nil_r in Eg2. subst g2.
    pose proof (pc_end delims r0 [] Br (or_introl eq_refl)) as Q. rewrite app_nil_r in Q.
    destruct (pieces_det _ _ _ P' _ _ Q) as (-> & ->).
    assert (K : do_rename_fuel n r None = Ok []) by (destruct n; reflexivity). rewrite K.
    cbn [rbind glue map]. now rewrite app_nil_r.
  - assert (Ne : ~ ends (skip_blanks r0)) by (rewrite <- at_end_spec; congruence).
    destruct l as [|[g' t'] l].
    { exfalso. inversion P' as [g0' e0 B0 E0' H0|]; subst. apply Ne.
      rewrite skip_blanks_blank by auto. now apply skip_ends. }
    assert (P'' : pieces delims (g2 ++ skip_blanks r0) ((g', t') :: l) last) by (rewrite <- Eg2; exact P').
    rewrite (IH n g2 (skip_blanks r0) last P''); auto; try discriminate; try lia.
    + cbn [rbind map fst snd glue app]. 
      assert (Eg' : g' = g2).
      { inversion P'' as [|g0' t0' r0' l0' last0' B0 T0 N0 Sh0 P0 H0]; subst.
        apply (f_equal blanks) in H0. rewrite (blanks_app g2 (skip_blanks r0)) in H0; [|auto|apply skip_blanks_idem].
        rewrite (blanks_app g' (t' ++ r0')) in H0; auto. apply (shape_not_blank delims); auto. }
      subst g'. reflexivity.
    + rewrite <- Eg2. exact O0.
    + apply skip_blanks_idem.
Qed.
Theorem str_do_rename_spec r (s : text) l last : one_line s -> pieces asm_delims s l last ->
  str_do_rename r s = Ok (match l with
                          | [] => s ++ match rename_find r [] with Some d => upto_nul d | None => [] end
                          | _ => glue (map (fun p => (fst p, rn r (snd p))) l) last
                          end).
Proof.
  intros O P. unfold str_do_rename.
  destruct l as [|[g t] l].
  - inversion P as [g e B E|]; subst.
    assert (e = []) as -> by (apply ends_one_line; auto; apply one_line_app in O; tauto).
    rewrite app_nil_r in *. cbn [do_rename_fuel]. unfold get_token, get_token_d.
    assert (Sk : skip_blanks last = []).
    { pose proof (skip_blanks_blank last [] B) as X. rewrite app_nil_r in X. exact X. }
    rewrite Sk. cbn [at_end txt rest kempty]. 
    assert (K : do_rename_fuel (length last) r None = Ok []) by (destruct (length last); reflexivity). rewrite K.
    cbn [rbind blanks]. rewrite app_nil_r.
    pose proof (blanks_app last [] B eq_refl) as X. rewrite app_nil_r in X. rewrite X. cbn [app]. rewrite ?app_nil_r. reflexivity.
  - inversion P as [|g0 t0 r0 l0 last0 B T N Sh P' E]; subst.
    cbn [do_rename_fuel].
    assert (D1 : In 32 delims) by (unfold delims; simpl; auto).
    assert (D2 : In 9 delims) by (unfold delims; simpl; auto).
    assert (L : (length ((g, t) :: l) <= S (length (g ++ t ++ r0)))%nat).
    { destruct (toks_exist (g ++ t ++ r0)) as (ts & T0).
      pose proof (toks_len _ _ _ (le_n _) T0) as L0.
      assert (H : has_tokens (g ++ t ++ r0) (map snd ((g, t) :: l))) by (exists ((g, t) :: l), last; auto).
      apply has_tokens_toks in H. rewrite (toks_det _ _ T0 _ H), map_length in L0. exact L0. }
    assert (P2 : pieces delims (g ++ (t ++ r0)) ((g, t) :: l) last) by exact P.
    pose proof (do_rename_pieces r ((g, t) :: l) (S (length (g ++ t ++ r0))) g (t ++ r0) last P2) as R.
    specialize (R O ltac:(apply (shape_not_blank delims); auto) B ltac:(discriminate) L).
    cbn [do_rename_fuel] in R. unfold get_token in *.
    rewrite (get_token_shape delims g t r0) by auto.
    change (t ++ r0) with ([] ++ t ++ r0) in R. rewrite (get_token_shape delims [] t r0) in R; auto; [|constructor].
    cbn [txt rest app] in *.
    pose proof (blanks_app g (t ++ r0) B ltac:(apply (shape_not_blank delims); auto)) as X.
    pose proof (blanks_app [] (t ++ r0) (Forall_nil _) ltac:(apply (shape_not_blank delims); auto)) as X0.
    cbn [app] in X0. rewrite X0 in R. rewrite X.
    destruct (do_rename_fuel _ r _) as [q| | |]; cbn [rbind] in R |- *; try discriminate.
    f_equal. injection R as R. cbn [map fst snd glue]. cbn [app] in R. rewrite R. reflexivity.
Qed.
