(* Proofs about the compiler wrapper: arguments removed and appended, the commands of a run. *)
From Coq Require Import ZArith List Bool String Sorted Lia.
From Verif Require Import Base BaseProofs StorageModel TextModel CcModel CcSpec CcProofs.
Import ListNotations.
Open Scope Z_scope.
Open Scope list_scope.

(** ** Binary search *)
Lemma strcmp_le_trans a b c : str_ok a -> str_ok b -> str_ok c -> strcmp a b < 0 -> strcmp b c <= 0 -> strcmp a c < 0.
Proof.
  intros A B C H1 H2. destruct (Z.eq_dec (strcmp b c) 0) as [E|N].
  - apply strcmp_eq in E; auto. subst. exact H1.
  - apply (strcmp_trans a b c); auto. lia.
Qed.

Lemma sorted_nth l : sorted_words l -> forall i j a b, (i < j)%nat -> nth_error l i = Some a -> nth_error l j = Some b ->
  strcmp a b <= 0.
Proof.
  induction 1 as [|x l S IH F]; intros i j a b L Ha Hb; [destruct i; discriminate|].
  destruct j as [|j]; [lia|]. cbn in Hb. destruct i as [|i].
  - cbn in Ha. inversion Ha; subst. rewrite Forall_forall in F. apply F. eapply nth_error_In; eauto.
  - cbn in Ha. apply (IH i j); auto. lia.
Qed.

Lemma bsearch_ok key l : sorted_words l -> Forall str_ok l -> str_ok key -> forall fuel lo hi,
  (hi - lo < fuel)%nat -> (hi <= length l)%nat ->
  (bsearch fuel key l lo hi = true <-> exists i, (lo <= i < hi)%nat /\ nth_error l i = Some key).
Proof.
  intros S F K. induction fuel as [|fuel IH]; intros lo hi Lf Lh; [lia|]. cbn [bsearch].
  destruct (Nat.ltb_spec lo hi) as [L|L].
  2: { split; [discriminate|]. intros (i & H & _). lia. }
  set (mid := Nat.div2 (lo + hi)).
  assert (M : (lo <= mid < hi)%nat).
  { subst mid. rewrite Nat.div2_div. split; [apply Nat.div_le_lower_bound; lia|apply Nat.div_lt_upper_bound; lia]. }
  destruct (nth_error l mid) as [t|] eqn:E.
  2: { apply nth_error_None in E. lia. }
  assert (Kt : str_ok t) by (rewrite Forall_forall in F; apply F; eapply nth_error_In; eauto).
  destruct (Z.ltb_spec (strcmp key t) 0) as [C|C].
  - rewrite IH by lia. split; intros (i & H & N).
    + exists i. split; [lia|auto].
    + exists i. split; auto. destruct (Nat.lt_ge_cases i mid) as [G|G]; [lia|exfalso].
      assert (strcmp t key <= 0).
      { destruct (Nat.eq_dec i mid) as [->|D]; [rewrite E in N; inversion N; subst|].
        - assert (strcmp key key = 0) by (apply strcmp_eq; auto). lia.
        - apply (sorted_nth l S mid i); auto. lia. }
      rewrite (strcmp_antisym key t) in H0. lia.
  - destruct (Z.ltb_spec 0 (strcmp key t)) as [C2|C2].
    + rewrite IH by lia. split; intros (i & H & N).
      * exists i. split; [lia|auto].
      * exists i. split; auto. destruct (Nat.lt_ge_cases mid i) as [G|G]; [lia|exfalso].
        assert (strcmp key t <= 0).
        { destruct (Nat.eq_dec i mid) as [->|D]; [rewrite E in N; inversion N; subst|].
          - assert (strcmp key key = 0) by (apply strcmp_eq; auto). lia.
          - apply (sorted_nth l S i mid); auto. lia. }
        lia.
    + split; [intros _|auto]. exists mid. split; [lia|]. rewrite E. f_equal. symmetry. apply strcmp_eq; auto. lia.
Qed.

Lemma removable_ok l key : sorted_words l -> Forall str_ok l -> str_ok key ->
  removable l key = existsb (list_eqb key) l.
Proof.
  intros S F K. unfold removable. pose proof (bsearch_ok key l S F K (Datatypes.S (length l)) 0 (length l)) as B.
  specialize (B ltac:(lia) ltac:(lia)). apply eq_true_iff_eq. rewrite B, existsb_exists. split.
  - intros (i & _ & N). exists key. split; [eapply nth_error_In; eauto|apply list_eqb_eq; reflexivity].
  - intros (x & I & E). apply list_eqb_eq in E. subst x. apply In_nth_error in I. destruct I as [i I]. exists i.
    split; auto. split; [lia|]. apply nth_error_Some. unfold text in *; rewrite I; discriminate.
Qed.

(** ** Arrays *)
Lemma put_app {A} (a : list A) y b x : put (a ++ y :: b) (length a) x = Some (a ++ x :: b).
Proof. induction a as [|z a IH]; cbn; [reflexivity|]. rewrite IH. reflexivity. Qed.
Lemma aput_at a y b x i h : i = length a -> aput (a ++ y :: b) i x h = (Val (a ++ x :: b), h).
Proof. intros ->. unfold aput. rewrite put_app. reflexivity. Qed.
Lemma aget_at a y b i h : i = length a -> aget (a ++ y :: b) i h = (Val y, h).
Proof. intros ->. unfold aget. rewrite nth_error_app2 by lia. rewrite Nat.sub_diag. reflexivity. Qed.
Lemma aget_nth l i y h : nth_error l i = Some y -> aget l i h = (Val y, h).
Proof. unfold aget. intros ->. reflexivity. Qed.
Lemma bind_val {A B} (m : M A) (f : A -> M B) h a h' : m h = (Val a, h') -> mbind m f h = f a h'.
Proof. unfold mbind. intros ->. reflexivity. Qed.

Lemma aputs_run xs : forall a z h, (length xs <= length z)%nat ->
  aputs (a ++ z) (length a) xs h = (Val (a ++ map Some xs ++ skipn (length xs) z), h).
Proof.
  induction xs as [|x xs IH]; intros a z h L; [reflexivity|]. destruct z as [|y z]; [cbn in L; lia|].
  cbn [aputs]. rewrite (bind_val _ _ _ _ _ (aput_at a y z (Some x) _ h eq_refl)).
  replace (S (length a)) with (length (a ++ [Some x])) by (rewrite app_length; cbn; lia).
  replace (a ++ Some x :: z) with ((a ++ [Some x]) ++ z) by (rewrite <- app_assoc; reflexivity).
  rewrite IH by (cbn in L; lia). rewrite <- app_assoc. reflexivity.
Qed.

(** ** Closing the gaps *)
Fixpoint squeeze {A} (l : list (option A)) : list A :=
  match l with [] => [] | None :: r => squeeze r | Some a :: r => a :: squeeze r end.
Fixpoint track {A} (i j : nat) (xs : list (option A)) (p : nat) : nat :=
  match xs with
  | [] => p
  | None :: r => track i (S j) r p
  | Some _ :: r => track (S i) (S j) r (if Nat.eqb p j then i else p)
  end.
Fixpoint keep {A B} (xs : list (option A)) (ys : list B) : list B :=
  match xs, ys with
  | None :: r, _ :: s => keep r s
  | Some _ :: r, y :: s => y :: keep r s
  | _, _ => []
  end.
Definition aligned {A B} (xs : list (option A)) (ys : list (option B)) : Prop :=
  Forall2 (fun x y => x = None -> y = None) xs ys.

Lemma squeeze_len {A} (l : list (option A)) : (length (squeeze l) <= length l)%nat.
Proof. induction l as [|[a|] l IH]; cbn; lia. Qed.
Lemma keep_len {A B} (xs : list (option A)) : forall ys : list B, length xs = length ys -> length (keep xs ys) = length (squeeze xs).
Proof. induction xs as [|[a|] xs IH]; intros [|y ys] L; try discriminate; cbn in *; auto. Qed.

Definition ins_at (o : option (list (option text))) (E : list (option text)) (n : nat) (ys U : list (option text)) : Prop :=
  exists K, o = Some (E ++ K ++ ys ++ U) /\ length K = n /\ Forall (fun x => x = None) K.

Lemma close_gaps_run xs : forall n i j D J T m h (ins : option (list (option text) * list (option text) * list (option text))),
  n = length xs -> mv_argv m = D ++ J ++ xs ++ T -> length D = i -> (i + length J = j)%nat ->
  match ins with
  | None => mv_ins m = None
  | Some (E, ys, U) => length E = i /\ aligned xs ys /\ ins_at (mv_ins m) E (length J) ys U
  end ->
  exists m' J', close_gaps n i j m h = (Val ((i + length (squeeze xs))%nat, m'), h) /\
    mv_argv m' = D ++ map Some (squeeze xs) ++ J' ++ T /\
    (length J' = length J + length xs - length (squeeze xs))%nat /\
    mv_act m' = track i j xs (mv_act m) /\ mv_input m' = track i j xs (mv_input m) /\ mv_lang m' = track i j xs (mv_lang m) /\
    match ins with
    | None => mv_ins m' = None
    | Some (E, ys, U) => ins_at (mv_ins m') (E ++ keep xs ys) (length J') [] U
    end.
Proof.
  induction xs as [|x xs IH]; intros n i j D J T m h ins -> Ev LD LJ Hi.
  - exists m, J. cbn. rewrite Nat.add_0_r. repeat split; auto; try lia. destruct ins as [[[E ys] U]|]; [|auto].
    destruct Hi as (_ & A & Hi). inversion A; subst. cbn. rewrite app_nil_r. exact Hi.
  - cbn [length close_gaps].
    assert (G : aget (mv_argv m) j h = (Val x, h)).
    { rewrite Ev. rewrite app_assoc. apply aget_at. rewrite app_length. lia. }
    rewrite (bind_val _ _ _ _ _ G). pose proof (squeeze_len xs) as SL. destruct x as [a|].
    + destruct (Nat.eqb_spec i j) as [Eij|Nij].
      * destruct J; [|cbn in LJ; lia]. clear LJ. subst j.
        set (ins2 := match ins with Some (E, y :: ys, U) => Some (E ++ [y], ys, U) | _ => None end).
        destruct (IH (length xs) (S i) (S i) (D ++ [Some a]) [] T m h ins2 eq_refl) as (m' & J' & R & V & LJ' & P1 & P2 & P3 & Hi').
        { rewrite Ev. rewrite <- app_assoc. reflexivity. }
        { rewrite app_length. cbn. lia. } { cbn; lia. }
        { subst ins2. destruct ins as [[[E ys] U]|]; [|exact Hi]. destruct Hi as (LE & A & K & HK & LK & FK).
          inversion A as [|? y ? ys' Hy A']; subst. destruct K; [|discriminate]. cbn in HK.
          split; [rewrite app_length; cbn; lia|]. split; [exact A'|]. exists []. cbn. rewrite <- app_assoc. auto. }
        exists m', J'. cbn [squeeze map length track]. rewrite Nat.add_succ_r. split; [exact R|].
        split; [rewrite V, <- app_assoc; reflexivity|]. split; [cbn in LJ'; cbn; lia|].
        assert (T1 : forall p, (if Nat.eqb p i then i else p) = p) by (intros p; destruct (Nat.eqb_spec p i); auto).
        cbn [Nat.eqb]. rewrite !T1. repeat split; auto.
        subst ins2. destruct ins as [[[E ys] U]|]; [|exact Hi']. destruct Hi as (LE & A & _).
        inversion A; subst. cbn [keep]. rewrite <- app_assoc in Hi'. exact Hi'.
      * destruct J as [|y0 J]; [cbn in LJ; lia|].
        assert (G1 : aput (mv_argv m) i (Some a) h = (Val (D ++ Some a :: J ++ Some a :: xs ++ T), h)).
        { rewrite Ev. cbn. apply aput_at. auto. }
        rewrite (bind_val _ _ _ _ _ G1).
        set (ins2 := match ins with Some (E, y :: ys, U) => Some (E ++ [y], ys, U) | _ => None end).
        set (minsM := match mv_ins m with None => _ | Some l => _ end).
        assert (G2 : exists o, minsM h = (Val o, h) /\
          match ins2 with
          | None => o = None
          | Some (E, ys, U) => length E = S i /\ aligned xs ys /\ ins_at o E (length (y0 :: J)) ys U
          end).
        { subst ins2 minsM. destruct ins as [[[E ys] U]|].
          - destruct Hi as (LE & A & K & HK & LK & FK). inversion A as [|? y ? ys' Hy A']; subst. rewrite HK.
            destruct K as [|z K]; [discriminate|]. cbn in LK. inversion FK as [|? ? Fz FK']; subst.
            eexists. split.
            + erewrite bind_val by (change (E ++ (None :: K) ++ (y :: ys') ++ U) with (E ++ (None :: K) ++ y :: (ys' ++ U));
                rewrite app_assoc; apply aget_at; rewrite app_length; cbn in *; lia).
              erewrite bind_val by (cbn; apply aput_at; cbn in *; lia).
              erewrite bind_val.
              2: { replace (E ++ y :: K ++ y :: ys' ++ U) with ((E ++ y :: K) ++ y :: (ys' ++ U)) by (rewrite <- app_assoc; reflexivity).
                   apply aput_at. rewrite app_length. cbn in *. lia. }
              reflexivity.
            + split; [rewrite app_length; cbn; lia|]. split; [exact A'|]. exists (K ++ [None]).
              split; [f_equal; rewrite <- !app_assoc; reflexivity|].
              split; [rewrite app_length; cbn; lia|]. apply Forall_app. auto.
          - rewrite Hi. eexists. split; reflexivity. }
        destruct G2 as (o & G2 & Ho). rewrite (bind_val _ _ _ _ _ G2).
        set (m2 := {| mv_argv := _ |}).
        destruct (IH (length xs) (S i) (S j) (D ++ [Some a]) (J ++ [Some a]) T m2 h ins2 eq_refl)
          as (m' & J' & R & V & LJ' & P1 & P2 & P3 & Hi').
        { subst m2. cbn. rewrite <- !app_assoc. reflexivity. }
        { rewrite app_length. cbn. lia. } { rewrite app_length. cbn in *. lia. }
        { subst m2. cbn [mv_ins]. destruct ins2 as [[[E ys] U]|]; auto. destruct Ho as (H1 & H2 & H3). repeat split; auto.
          rewrite app_length. cbn in *. rewrite Nat.add_1_r. exact H3. }
        exists m', J'. cbn [squeeze map length track]. rewrite Nat.add_succ_r. split; [exact R|].
        split; [rewrite V, <- app_assoc; reflexivity|]. split; [rewrite app_length in LJ'; cbn in LJ'; cbn; lia|].
        repeat split; auto. subst ins2. destruct ins as [[[E ys] U]|]; [|exact Hi']. destruct Hi as (LE & A & _).
        inversion A; subst. cbn [keep]. rewrite <- app_assoc in Hi'. exact Hi'.
    + set (ins2 := match ins with Some (E, y :: ys, U) => Some (E, ys, U) | _ => None end).
      destruct (IH (length xs) i (S j) D (J ++ [None]) T m h ins2 eq_refl) as (m' & J' & R & V & LJ' & P1 & P2 & P3 & Hi').
      { rewrite Ev. rewrite <- !app_assoc. reflexivity. }
      { auto. } { rewrite app_length. cbn. lia. }
      { subst ins2. destruct ins as [[[E ys] U]|]; [|exact Hi]. destruct Hi as (LE & A & K & HK & LK & FK).
        inversion A as [|? y ? ys' Hy A']; subst. rewrite (Hy eq_refl) in *. split; auto. split; auto.
        exists (K ++ [None]). split; [rewrite HK, <- app_assoc; reflexivity|]. split; [rewrite !app_length; cbn; lia|].
        apply Forall_app. auto. }
      exists m', J'. cbn [squeeze map length track]. split; [exact R|]. split; [exact V|].
      split; [rewrite app_length in LJ'; cbn in LJ'; cbn; lia|]. repeat split; auto.
      subst ins2. destruct ins as [[[E ys] U]|]; [|exact Hi']. destruct Hi as (LE & A & _). inversion A; subst. exact Hi'.
Qed.

Lemma track_below {A} (xs : list (option A)) : forall i j p, (p < j)%nat -> track i j xs p = p.
Proof.
  induction xs as [|[a|] xs IH]; intros i j p L; cbn; auto. destruct (Nat.eqb_spec p j); [lia|]. apply IH. lia.
Qed.
Lemma track_at {A} (xs : list (option A)) : forall i j p a, (i <= j)%nat -> nth_error xs p = Some (Some a) ->
  exists p', track i j xs (j + p) = (i + p')%nat /\ nth_error (squeeze xs) p' = Some a.
Proof.
  induction xs as [|[b|] xs IH]; intros i j p a L E; [destruct p; discriminate|..].
  - destruct p as [|p]; cbn in *.
    + inversion E; subst. rewrite Nat.add_0_r, Nat.eqb_refl. exists 0%nat. rewrite track_below by lia. split; [lia|reflexivity].
    + destruct (Nat.eqb_spec (j + S p) j); [lia|]. destruct (IH (S i) (S j) p a ltac:(lia) E) as (p' & P1 & P2).
      exists (S p'). rewrite Nat.add_succ_r. split; [|exact P2]. rewrite Nat.add_succ_l in P1. rewrite P1. lia.
  - destruct p as [|p]; cbn in *; [discriminate|]. destruct (IH i (S j) p a ltac:(lia) E) as (p' & P1 & P2).
    exists p'. rewrite Nat.add_succ_r. rewrite Nat.add_succ_l in P1. auto.
Qed.

(* Only one element with a tag, after squeezing. *)
Definition only (t : tag) (v : text) (l : list (tag * text)) (p : nat) : Prop :=
  nth_error l p = Some (t, v) /\ forall q v', nth_error l q = Some (t, v') -> q = p.
Lemma squeeze_nth {A} (l : list (option A)) : forall q a, nth_error (squeeze l) q = Some a ->
  exists p, nth_error l p = Some (Some a) /\ (forall i j, (i <= j)%nat -> track i j l (j + p) = (i + q)%nat).
Proof.
  induction l as [|[b|] l IH]; intros q a E; [destruct q; discriminate|..].
  - destruct q as [|q]; cbn in E.
    + inversion E; subst. exists 0%nat. split; [reflexivity|]. intros i j L. cbn. rewrite Nat.add_0_r, Nat.eqb_refl.
      rewrite track_below by lia. lia.
    + destruct (IH q a E) as (p & P1 & P2). exists (S p). split; [exact P1|]. intros i j L. cbn.
      destruct (Nat.eqb_spec (j + S p) j); [lia|]. replace (j + S p)%nat with (S j + p)%nat by lia. rewrite P2 by lia. lia.
  - destruct (IH q a E) as (p & P1 & P2). exists (S p). split; [exact P1|]. intros i j L. cbn.
    replace (j + S p)%nat with (S j + p)%nat by lia. apply P2. lia.
Qed.
Lemma only_squeeze t v l p : at_only t v l p -> exists p', track 1 1 l (1 + p) = S p' /\ only t v (squeeze l) p'.
Proof.
  intros [E U]. destruct (track_at l 1 1 p (t, v) ltac:(lia) E) as (p' & P1 & P2). exists p'. split; [exact P1|].
  split; [exact P2|]. intros q v' Q. destruct (squeeze_nth l q (t, v') Q) as (p0 & Q1 & Q2). apply U in Q1. subst p0.
  specialize (Q2 1%nat 1%nat ltac:(lia)). cbn [Nat.add] in *. lia.
Qed.

Fixpoint upd {A} (l : list A) (i : nat) (x : A) : list A :=
  match l, i with [], _ => [] | _ :: r, O => x :: r | y :: r, S i' => y :: upd r i' x end.

Lemma upd_only t v l p (x : text) (f : tag * text -> text) : only t v l p -> 
  (exists t0, t = t0 /\ t0 <> TPlain) ->
  upd (map f l) p x = map (fun y => match t, fst y with TAct, TAct | TIn, TIn | TLang, TLang => x | _, _ => f y end) l.
Proof.
  intros O (t0 & -> & NP). revert p O. induction l as [|y l IH]; intros p [E U]; [reflexivity|].
  destruct p as [|p].
  - cbn in E. inversion E; subst. cbn [map upd fst]. f_equal; [destruct t0; try reflexivity; contradiction|].
    apply map_ext_in. intros [t' v'] I. cbn. apply In_nth_error in I. destruct I as [q I].
    destruct t0, t'; try reflexivity; exfalso; specialize (U (S q) v' I); discriminate.
  - cbn [map upd]. f_equal.
    + destruct y as [t' v']. cbn. destruct t0, t'; try reflexivity; exfalso; specialize (U 0%nat v' eq_refl); discriminate.
    + apply IH. split; [exact E|]. intros q v' Q. specialize (U (S q) v' Q). lia.
Qed.
