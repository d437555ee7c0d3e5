(** Proofs about tokens and statements. *)
From Coq Require Import String.
From Verif Require Import Base BaseProofs StorageModel TextModel TextSpec.
Open Scope list_scope.

(** ** Comparing pieces of text *)
Lemma memcmp_zero n a b : length a = n -> length b = n -> memcmp n a b = 0 <-> a = b.
Proof.
  revert a b; induction n as [|n IH]; intros [|x a] [|y b]; simpl; try discriminate; intros Ha Hb.
  - split; auto.
  - injection Ha as Ha; injection Hb as Hb.
    destruct (x =? y) eqn:E.
    + apply Z.eqb_eq in E; subst y. rewrite IH by auto. split; [now intros ->|now intros [= ->]].
    + apply Z.eqb_neq in E. split; [lia|intros [= -> _]; lia].
Qed.
Lemma memcmp_firstn n a b : memcmp n a b = memcmp n (firstn n a) (firstn n b).
Proof. revert a b; induction n as [|n IH]; intros [|x a] [|y b]; simpl; auto. destruct (x =? y); auto. Qed.
Lemma memcmp_pre n a b : (n <= length a)%nat -> (n <= length b)%nat -> memcmp n a b = 0 <-> firstn n a = firstn n b.
Proof. intros. rewrite memcmp_firstn. apply memcmp_zero; apply firstn_length_le; auto. Qed.

Lemma same_spec a b : same a b = true <-> a = b.
Proof.
  unfold same, kpstrcmp, kpstrncmp. rewrite Z.eqb_eq.
  set (n := Nat.min _ _).
  assert (Hn : n = Nat.min (length a) (length b)) by (unfold n; lia).
  clearbody n.
  destruct (memcmp n a b =? 0) eqn:E; simpl.
  - apply Z.eqb_eq in E. rewrite memcmp_pre in E by lia.
    destruct (Nat.ltb_spec (length b) (length a)); simpl.
    { replace (Nat.ltb (length b) (Nat.max (length a) (length b))) with true by (symmetry; apply Nat.ltb_lt; lia).
      split; [lia|]. intros ->; lia. }
    destruct (Nat.ltb_spec (length a) (length b)); simpl.
    { replace (Nat.ltb (length a) (Nat.max (length a) (length b))) with true by (symmetry; apply Nat.ltb_lt; lia).
      split; [lia|]. intros ->; lia. }
    split; auto. intros _. rewrite !firstn_all2 in E by lia. auto.
  - apply Z.eqb_neq in E. split; [tauto|]. intros ->. rewrite memcmp_pre in E by lia. tauto.
Qed.
Lemma same_refl a : same a a = true. Proof. now apply same_spec. Qed.
Lemma same_false a b : same a b = false <-> a <> b.
Proof. rewrite <- same_spec. destruct (same a b); split; congruence. Qed.
Lemma same_sym a b : same a b = same b a.
Proof.
  destruct (same b a) eqn:E; [apply same_spec in E; subst; apply same_refl|].
  apply same_false in E. apply same_false. congruence.
Qed.
Lemma starts_spec a z : starts a z = true <-> exists r, a = z ++ r.
Proof.
  unfold starts, kpstrncmp. rewrite Z.eqb_eq.
  replace (Nat.min (Nat.min (length a) (length z)) (length z)) with (Nat.min (length a) (length z)) by lia.
  set (n := Nat.min _ _).
  assert (Hn : n = Nat.min (length a) (length z)) by (unfold n; lia). clearbody n.
  rewrite Nat.ltb_irrefl, andb_false_r.
  destruct (memcmp n a z =? 0) eqn:E; simpl.
  - apply Z.eqb_eq in E. rewrite memcmp_pre in E by lia.
    destruct (Nat.ltb_spec (length a) (length z)); simpl.
    + split; [lia|]. intros [r ->]. rewrite app_length in *; lia.
    + split; auto. intros _. replace n with (length z) in E by lia.
      rewrite (firstn_all z) in E. exists (skipn (length z) a). rewrite <- E at 1. symmetry; apply firstn_skipn.
  - apply Z.eqb_neq in E. split; [tauto|]. intros [r ->]. rewrite memcmp_pre in E by lia.
    exfalso. apply E. rewrite app_length in Hn. replace n with (length z) by lia.
    now rewrite firstn_app, Nat.sub_diag, app_nil_r.
Qed.

(** The order of kpstrcmp, as the trees need it: byte by byte, a prefix first. *)
Lemma kpstrcmp_cons x a y b :
  kpstrcmp (x :: a) (y :: b) = if x =? y then kpstrcmp a b else x - y.
Proof.
  unfold kpstrcmp, kpstrncmp. cbn [length].
  replace (Nat.min (Nat.min (S (length a)) (S (length b))) (Nat.max (S (length a)) (S (length b))))
    with (S (Nat.min (Nat.min (length a) (length b)) (Nat.max (length a) (length b)))) by lia.
  cbn [memcmp]. destruct (x =? y) eqn:E.
  - change (Nat.ltb (S ?a) (S ?b)) with (Nat.ltb a b).
    replace (Nat.max (S (length a)) (S (length b))) with (S (Nat.max (length a) (length b))) by lia.
    reflexivity.
  - apply Z.eqb_neq in E. replace (x - y =? 0) with false by (symmetry; apply Z.eqb_neq; lia). reflexivity.
Qed.

(** ** Blanks *)
Lemma isblank_spec c : isblank c = true <-> c = 32 \/ c = 9.
Proof. unfold isblank. rewrite orb_true_iff, !Z.eqb_eq. tauto. Qed.
Lemma skip_blanks_split s : exists g, s = g ++ skip_blanks s /\ blank g.
Proof.
  induction s as [|c s (g & E & B)]; simpl.
  - exists []; split; auto. constructor.
  - destruct (isblank c) eqn:Ec.
    + exists (c :: g); split; [simpl; now f_equal|]. constructor; auto. now apply isblank_spec.
    + exists []; split; auto. constructor.
Qed.
Lemma skip_blanks_idem s : skip_blanks (skip_blanks s) = skip_blanks s.
Proof. induction s as [|c s IH]; simpl; auto. destruct (isblank c) eqn:E; auto. simpl; now rewrite E. Qed.
Lemma skip_blanks_head s c r : skip_blanks s = c :: r -> isblank c = false.
Proof.
  induction s as [|x s IH]; simpl; [discriminate|]. destruct (isblank x) eqn:E; auto. congruence.
Qed.
Lemma skip_blanks_blank g s : blank g -> skip_blanks (g ++ s) = skip_blanks s.
Proof. induction 1 as [|c g H _ IH]; simpl; auto. apply isblank_spec in H. now rewrite H. Qed.
Lemma at_end_spec s : at_end s = true <-> ends s.
Proof.
  unfold ends. destruct s as [|c s]; simpl.
  - split; auto.
  - rewrite Z.eqb_eq. split; [intros ->; eauto|]. intros [|[r H]]; congruence.
Qed.

(** ** One token *)
Lemma among_spec c d : among c d = true <-> In c d.
Proof.
  unfold among. rewrite existsb_exists. split.
  - intros (x & H & E). apply Z.eqb_eq in E; now subst.
  - intros H; exists c; split; auto. apply Z.eqb_refl.
Qed.
Lemma undelimited_spec d s : forall a b, undelimited d s = (a, b) ->
  s = a ++ b /\ Forall (fun c => ~ In c d) a /\ (forall c r, b = c :: r -> In c d).
Proof.
  induction s as [|c s IH]; simpl; intros a b H.
  - injection H as <- <-. repeat split; auto; discriminate.
  - destruct (among c d) eqn:E.
    + injection H as <- <-. apply among_spec in E. repeat split; auto. intros ? ? [= <- _]; auto.
    + destruct (undelimited d s) as [a' b'] eqn:Eu. injection H as <- <-.
      destruct (IH _ _ eq_refl) as (-> & F & G). repeat split; auto.
      constructor; auto. rewrite <- among_spec. congruence.
Qed.
Lemma quoted_cons c r : quoted (c :: r) =
  if c =? 34 then ([c], r)
  else match r with
       | d :: r' => if c =? 92 then let (a, b) := quoted r' in (c :: d :: a, b)
                    else let (a, b) := quoted r in (c :: a, b)
       | [] => ([c], [])
       end.
Proof. reflexivity. Qed.
Lemma quoted_spec n s : (length s <= n)%nat -> forall a b, quoted s = (a, b) ->
  s = a ++ b /\ ((exists q, quote_body q /\ a = q ++ [34])
                 \/ (b = [] /\ quote_body a)
                 \/ (b = [] /\ exists q, quote_body q /\ a = q ++ [92])).
Proof.
  revert s; induction n as [|n IH]; intros [|c s] Hn a b H; simpl in Hn; try lia; [| |rewrite quoted_cons in H].
  - injection H as <- <-. split; auto. right; left; split; auto. constructor.
  - injection H as <- <-. split; auto. right; left; split; auto. constructor.
  - destruct (c =? 34) eqn:E1.
    { injection H as <- <-. apply Z.eqb_eq in E1; subst. split; auto. left. exists []; split; auto. constructor. }
    apply Z.eqb_neq in E1.
    destruct s as [|d s].
    { injection H as <- <-. split; auto. right.
      destruct (Z.eq_dec c 92) as [->|N].
      - right; split; auto. exists []; split; auto; constructor.
      - left; split; auto. repeat constructor; auto. }
    destruct (c =? 92) eqn:E2.
    + apply Z.eqb_eq in E2; subst c.
      destruct (quoted s) as [a' b'] eqn:Eq. injection H as <- <-. simpl in Hn.
      destruct (IH s ltac:(lia) _ _ Eq) as (-> & C).
      split; auto. destruct C as [(q & Hq & ->)|[(-> & Hq)|(-> & q & Hq & ->)]].
      * left. exists (92 :: d :: q); split; auto; now constructor.
      * right; left; split; auto; now constructor.
      * right; right; split; auto. exists (92 :: d :: q); split; auto; now constructor.
    + apply Z.eqb_neq in E2.
      destruct (quoted (d :: s)) as [a' b'] eqn:Eq. injection H as <- <-. 
      destruct (IH (d :: s) ltac:(simpl in *; lia) _ _ Eq) as (-> & C).
      split; auto. destruct C as [(q & Hq & ->)|[(-> & Hq)|(-> & q & Hq & ->)]].
      * left. exists (c :: q); split; auto; now constructor.
      * right; left; split; auto; now constructor.
      * right; right; split; auto. exists (c :: q); split; auto; now constructor.
Qed.

(** What get_token gives: either nothing, at the end of the line, or a token. *)
Lemma get_token_spec d s t s' : get_token_d d (Some s) = (t, s') ->
  (ends (skip_blanks s) /\ t = kempty /\ s' = None)
  \/ (~ ends (skip_blanks s) /\ skip_blanks s = txt t ++ rest t /\ txt t <> [] /\ ~ ends (txt t)
      /\ token_shape d (txt t) (rest t)
      /\ ((ends (skip_blanks (rest t)) /\ s' = None)
          \/ (~ ends (skip_blanks (rest t)) /\ s' = Some (skip_blanks (rest t))))).
Proof.
  unfold get_token_d.
  destruct (at_end (skip_blanks s)) eqn:E.
  - intros [= <- <-]. left. rewrite at_end_spec in E; auto.
  - assert (NE : ~ ends (skip_blanks s)) by (rewrite <- at_end_spec; congruence).
    set (s1 := skip_blanks s) in *.
    destruct s1 as [|c r] eqn:Es; [exfalso; apply NE; now left|].
    assert (Hb : isblank c = false) by (eapply skip_blanks_head; exact Es).
    assert (H10 : c <> 10) by (intros ->; apply NE; right; eauto).
    set (p := if c =? 34 then _ else _).
    assert (P : exists a b, p = (a, b) /\ c :: r = a ++ b /\ a <> [] /\ ~ ends a /\ token_shape d a b).
    { unfold p. destruct (c =? 34) eqn:E1.
      - apply Z.eqb_eq in E1; subst c. destruct (quoted r) as [a b] eqn:Eq.
        destruct (quoted_spec _ r (le_n _) _ _ Eq) as (-> & C).
        exists (34 :: a), b. repeat split; auto; try discriminate.
        + intros [|[? H]]; discriminate.
        + destruct C as [(q & Hq & ->)|[(-> & Hq)|(-> & q & Hq & ->)]].
          * now apply ts_quoted. * now apply ts_open. * now apply ts_open_backslash.
      - apply Z.eqb_neq in E1.
        destruct (undelimited d (c :: r)) as [a b] eqn:Eu.
        destruct (undelimited_spec _ _ _ _ Eu) as (Ha & Hf & Hd).
        destruct a as [|x a].
        + exists [c], r. repeat split; auto; try discriminate.
          * intros [|[? H]]; congruence.
          * simpl in Ha. assert (c <> 32 /\ c <> 9) as (? & ?) by (split; intros ->; discriminate Hb).
            apply ts_delim; auto. eapply Hd; eauto.
        + exists (x :: a), b. injection Ha as -> Ha. repeat split; auto; try discriminate.
          * simpl; now f_equal.
          * intros [|[? H]]; congruence.
          * apply ts_word; auto; try discriminate. simpl; congruence. }
    destruct P as (a & b & -> & Hc & Ha & He & Hs). rewrite Hc in NE |- *.
    intros [= <- <-]. right. simpl. split; [exact NE|]. do 4 (split; [auto|]).
    destruct (at_end (skip_blanks b)) eqn:E2.
    + left; split; auto. now apply at_end_spec.
    + right; split; auto. rewrite <- at_end_spec; congruence.
Qed.
Lemma get_token_none d : get_token_d d None = (kempty, None).
Proof. reflexivity. Qed.

(** A token followed by more: the pointer is at a place that is not blank. *)
Lemma skip_ends s : ends s -> ends (skip_blanks s).
Proof. intros [->|[r ->]]; simpl; [now left|right; eauto]. Qed.
Lemma not_ends_skip s : ~ ends (skip_blanks s) -> s <> [].
Proof. intros H ->. apply H. now left. Qed.

Lemma pieces_gap d g s l last :
  blank g -> pieces d s l last ->
  pieces d (g ++ s) (match l with [] => [] | (g', t) :: r => (g ++ g', t) :: r end)
           (match l with [] => g ++ last | _ => last end).
Proof.
  intros B P. destruct P as [g' e B' E|g' t r l last B' N NE T P].
  - rewrite app_assoc. constructor; auto. now apply Forall_app.
  - rewrite app_assoc. constructor; auto. now apply Forall_app.
Qed.

(** ** All tokens of a line *)
Lemma tokens_fuel_spec n : forall s : text, (length s < n)%nat -> ~ ends (skip_blanks s) ->
  exists ts l last, tokens_fuel n (Some s) = Ok ts /\ pieces delims s l last /\ map txt ts = map snd l /\ l <> [].
Proof.
  induction n as [|n IH]; intros s Hn NE; [lia|].
  cbn [tokens_fuel].
  destruct (get_token (Some s)) as [t s'] eqn:E. unfold get_token in E.
  destruct (get_token_spec _ _ _ _ E) as [(H & _)|(_ & Hs & Ht & Htn & Hsh & C)]; [contradiction|].
  destruct (skip_blanks_split s) as (g & Eg & Bg). rewrite Hs in Eg.
  destruct (skip_blanks_split (rest t)) as (g2 & Eg2 & Bg2).
  assert (Hl : (length (skip_blanks (rest t)) < length s)%nat).
  { pose proof (f_equal (@length Z) Eg) as L1. pose proof (f_equal (@length Z) Eg2) as L2.
    rewrite !app_length in L1. rewrite app_length in L2. destruct (txt t); [congruence|simpl in L1; lia]. }
  destruct C as [(He & ->)|(He & ->)].
  - cbn [rbind]. destruct n; cbn [tokens_fuel rbind].
    + exists [t], [(g, txt t)], g2. repeat split; auto; try discriminate.
      rewrite Eg. constructor; auto. clear - Bg2 Eg2 He. rewrite Eg2 in *. rewrite (skip_blanks_blank g2) in He by auto.
      rewrite skip_blanks_idem in He. now constructor.
    + exists [t], [(g, txt t)], g2. repeat split; auto; try discriminate.
      rewrite Eg. constructor; auto. clear - Bg2 Eg2 He. rewrite Eg2 in *. rewrite (skip_blanks_blank g2) in He by auto.
      rewrite skip_blanks_idem in He. now constructor.
  - destruct (IH (skip_blanks (rest t))) as (ts & l & last & Et & P & M & L); [lia|now rewrite skip_blanks_idem|].
    rewrite Et. cbn [rbind].
    eexists (t :: ts), ((g, txt t) :: _), _. split; [reflexivity|].
    split; [|split; [|discriminate]].
    + rewrite Eg. constructor; auto. rewrite Eg2 at 1. apply (pieces_gap delims g2 _ l last); auto.
    + simpl. f_equal. rewrite M. destruct l as [|[g' t'] l]; reflexivity.
Qed.
Theorem tokens_spec (s : text) : exists ts l last,
  tokens s = Ok ts /\ pieces delims s l last /\
  map txt ts = (if at_end (skip_blanks s) then [[]] else map snd l) /\
  (at_end (skip_blanks s) = true <-> l = []).
Proof.
  unfold tokens. destruct (at_end (skip_blanks s)) eqn:E.
  - cbn [tokens_fuel]. unfold get_token, get_token_d. rewrite E.
    assert (H : tokens_fuel (length s) None = Ok []) by (destruct (length s); reflexivity).
    rewrite H. cbn [rbind].
    destruct (skip_blanks_split s) as (g & Eg & Bg).
    exists [kempty], [], g. repeat split; auto. rewrite Eg. constructor; auto. now apply at_end_spec.
  - destruct (tokens_fuel_spec (S (length s)) s) as (ts & l & last & A & B & C & D).
    + lia.
    + rewrite <- at_end_spec; congruence.
    + exists ts, l, last. repeat split; auto; try congruence.
Qed.
Lemma pieces_line d s l last : pieces d s l last -> exists e, s = glue l last ++ e /\ ends e.
Proof.
  induction 1 as [g e B E|g t r l last B N NE T P (e & -> & He)]; simpl.
  - exists e; auto.
  - exists e; split; auto. now rewrite !app_assoc.
Qed.
Lemma ends_one_line s : one_line s -> ends s -> s = [].
Proof. intros H [->|[r ->]]; auto. exfalso; apply H; now left. Qed.
Lemma pieces_one_line d s l last : one_line s -> pieces d s l last -> s = glue l last.
Proof.
  intros H P. destruct (pieces_line _ _ _ _ P) as (e & -> & He).
  rewrite (ends_one_line e) by (auto; intro; apply H; apply in_or_app; auto). now rewrite app_nil_r.
Qed.
Lemma pieces_nonempty d s l last : pieces d s l last ->
  Forall (fun p => blank (fst p) /\ snd p <> []) l /\ blank last.
Proof. induction 1 as [|g t r l last B N NE T P (A & C)]; split; auto. Qed.

(** ** The pieces of a line are unique. *)
Lemma quoted_closed b r : quote_body b -> quoted (b ++ 34 :: r) = (b ++ [34], r).
Proof.
  induction 1 as [|c b H IH|c b N1 N2 H IH]; cbn [app]; rewrite quoted_cons.
  - reflexivity.
  - cbn [Z.eqb Pos.eqb]. rewrite IH. reflexivity.
  - apply Z.eqb_neq in N1, N2. rewrite N1, N2, IH. destruct b; reflexivity.
Qed.
Lemma quoted_open b : quote_body b -> quoted b = (b, []).
Proof.
  induction 1 as [|c b H IH|c b N1 N2 H IH]; auto; rewrite quoted_cons.
  - cbn [Z.eqb Pos.eqb]. rewrite IH. reflexivity.
  - apply Z.eqb_neq in N1, N2. rewrite N1, N2, IH. destruct b; reflexivity.
Qed.
Lemma quoted_backslash b : quote_body b -> quoted (b ++ [92]) = (b ++ [92], []).
Proof.
  induction 1 as [|c b H IH|c b N1 N2 H IH]; cbn [app]; rewrite quoted_cons.
  - reflexivity.
  - cbn [Z.eqb Pos.eqb]. rewrite IH. reflexivity.
  - apply Z.eqb_neq in N1, N2. rewrite N1, N2, IH. destruct b; reflexivity.
Qed.
Lemma undelimited_word d t r : Forall (fun c => ~ In c d) t -> (forall c r', r = c :: r' -> In c d) ->
  undelimited d (t ++ r) = (t, r).
Proof.
  intros F D. induction F as [|c t N F IH]; cbn [app undelimited].
  - destruct r as [|c r]; auto. cbn [undelimited].
    replace (among c d) with true; auto. symmetry. apply among_spec. eauto.
  - replace (among c d) with false.
    + now rewrite IH.
    + symmetry. apply not_true_iff_false. now rewrite among_spec.
Qed.
Definition raw_token (d s : text) : text * text :=
  match s with
  | c :: r => if c =? 34 then let (a, b) := quoted r in (c :: a, b)
              else match undelimited d s with
                   | ([], _) => ([c], r)
                   | p => p
                   end
  | [] => ([], [])
  end.
Lemma raw_token_shape d t r : token_shape d t r -> raw_token d (t ++ r) = (t, r).
Proof.
  intros S. inversion S as [c r0 I Q|t0 r0 T W Q D|b r0 B|b B|b B]; subst; cbn [raw_token app].
  - apply Z.eqb_neq in Q. rewrite Q. cbn [undelimited].
    replace (among c d) with true by (symmetry; now apply among_spec). reflexivity.
  - destruct t as [|c t1]; [congruence|]. cbn [app raw_token].
    assert (c <> 34) by (simpl in Q; congruence). replace (c =? 34) with false by (symmetry; now apply Z.eqb_neq).
    change (c :: t1 ++ r) with ((c :: t1) ++ r). rewrite undelimited_word; auto.
  - cbn [Z.eqb Pos.eqb]. rewrite <- app_assoc. cbn [app]. now rewrite quoted_closed.
  - cbn [Z.eqb Pos.eqb]. rewrite app_nil_r, quoted_open; auto.
  - cbn [Z.eqb Pos.eqb]. rewrite app_nil_r, quoted_backslash; auto.
Qed.
Lemma shape_not_blank d t r : In 32 d -> In 9 d -> token_shape d t r -> skip_blanks (t ++ r) = t ++ r.
Proof.
  intros D1 D2 S.
  assert (H : exists c t', t = c :: t' /\ c <> 32 /\ c <> 9).
  { inversion S as [c r0 I Q Q1 Q2|t0 r0 T W Q D E1 E2|b r0 B|b B|b B].
    - exists c, []. auto.
    - destruct t as [|c t1]; [congruence|]. inversion W; subst. exists c, t1. repeat split; auto; intros ->; auto.
    - eexists _, _. split; [reflexivity|lia].
    - eexists _, _. split; [reflexivity|lia].
    - eexists _, _. split; [reflexivity|lia]. }
  destruct H as (c & t' & -> & H1 & H2). cbn [app skip_blanks]. unfold isblank.
  apply Z.eqb_neq in H1, H2. now rewrite H1, H2.
Qed.
Lemma get_token_shape d g (t r : text) : In 32 d -> In 9 d -> blank g -> ~ ends t -> token_shape d t r ->
  get_token_d d (@Some text (g ++ t ++ r))
  = (KStr t r, if at_end (skip_blanks r) then None else Some (skip_blanks r)).
Proof.
  intros D1 D2 B N S. unfold get_token_d. rewrite skip_blanks_blank, (shape_not_blank d t r); auto.
  assert (E : at_end (t ++ r) = false).
  { apply not_true_iff_false. rewrite at_end_spec. intros H. apply N.
    destruct t as [|c t]; [now left|]. right. destruct H as [H|[q H]]; [discriminate|].
    injection H as -> _. eauto. }
  rewrite E. change (match t ++ r with [] => _ | _ => _ end) with (raw_token d (t ++ r)).
  rewrite raw_token_shape; auto.
Qed.
Lemma ends_skip_id e : ends e -> skip_blanks e = e.
Proof. intros [->|[r ->]]; reflexivity. Qed.
Lemma pieces_det s l last : pieces delims s l last -> forall l' last', pieces delims s l' last' -> l = l' /\ last = last'.
Proof.
  assert (D1 : In 32 delims) by (unfold delims; simpl; auto).
  assert (D2 : In 9 delims) by (unfold delims; simpl; auto).
  assert (X : forall g e g' t r, blank g -> ends e -> blank g' -> ~ ends t -> token_shape delims t r ->
              g ++ e <> g' ++ t ++ r).
  { intros g e g' t r B E B' N S H. apply (f_equal skip_blanks) in H.
    rewrite (skip_blanks_blank g e), (skip_blanks_blank g' (t ++ r)), (shape_not_blank delims t r), ends_skip_id in H; auto.
    apply N. subst e. destruct t as [|c t]; [now left|]. destruct E as [E|[q E]]; [discriminate|].
    right. injection E as -> _. eauto. }
  induction 1 as [g e B E|g t r l last B T N S P IH]; intros l' last' P'.
  - inversion P' as [g' e' B' E' H|g' t' r' l2 last2 B' T' N' S' P2 H]; subst.
    + split; auto. pose proof (f_equal skip_blanks H) as H2.
      rewrite !skip_blanks_blank, !ends_skip_id in H2; auto. subst e'. now apply app_inv_tail in H.
    + exfalso. eapply (X g e g' t' r'); eauto.
  - inversion P' as [g' e' B' E' H|g' t' r' l2 last2 B' T' N' S' P2 H]; subst.
    + exfalso. eapply (X last' e' g t r); eauto.
    + pose proof (f_equal skip_blanks H) as H2.
      rewrite (skip_blanks_blank g' (t' ++ r')), (skip_blanks_blank g (t ++ r)), !(shape_not_blank delims) in H2; auto.
      pose proof (f_equal (raw_token delims) H2) as H3. rewrite !raw_token_shape in H3; auto.
      injection H3 as -> ->. apply app_inv_tail in H. subst g'.
      destruct (IH _ _ P2) as (-> & ->). auto.
Qed.
