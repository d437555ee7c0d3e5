(** Proofs about the streams of kpatch_gensrc. *)
From Coq Require Import Lia.
From Verif Require Import Base StreamModel.
Open Scope list_scope.

Definition in_dash (o : opt) : bool := match o with OptI Dash => true | _ => false end.
Definition out_dash (o : opt) : bool := match o with OptO Dash => true | _ => false end.
Definition count (p : opt -> bool) (os : list opt) : nat := length (filter p os).

Lemma stream_eqb_eq a b : stream_eqb a b = true <-> a = b.
Proof.
  destruct a, b; cbn; split; intros H; try discriminate; try reflexivity.
  - apply Nat.eqb_eq in H. congruence.
  - injection H as ->. apply Nat.eqb_refl.
Qed.
Lemma closed_in s f : is_closed s f = true <-> In f (closed s).
Proof.
  unfold is_closed. rewrite existsb_exists. split.
  - intros (x & I & E). apply stream_eqb_eq in E. subst. exact I.
  - intros I. exists f. split; [exact I|]. apply stream_eqb_eq. reflexivity.
Qed.
Lemma closed_not s f : ~ In f (closed s) -> is_closed s f = false.
Proof. rewrite <- closed_in. destruct (is_closed s f); [tauto|reflexivity]. Qed.

(** [i], [o]: how often [-] was given for input and for output. *)
Record inv (s : st) (i o : nat) : Prop := {
  inv_new : forall n, In (File n) (closed s) -> (n < opened s)%nat;
  inv_in : In StdIn (closed s) -> (0 < i)%nat;
  inv_out : In StdOut (closed s) \/ outf s = Some StdOut -> (0 < o)%nat;
  inv_outf : forall f, outf s = Some f -> ~ In f (closed s) /\ f <> StdIn /\
               (forall n, f = File n -> (n < opened s)%nat);
  inv_all : forall n, (n < opened s)%nat -> In (File n) (closed s) \/ outf s = Some (File n);
  inv_nodup : NoDup (closed s) }.

Lemma inv0 : inv (mkSt 0 [] 0 None) 0 0.
Proof.
  split; cbn.
  - tauto.
  - tauto.
  - intros [[]|H]; discriminate.
  - discriminate.
  - intros n L. lia.
  - constructor.
Qed.

Lemma step_spec s o i j : inv s i j ->
  (in_dash o = true -> i = O) -> (out_dash o = true -> j = O) ->
  step s o = Fatal \/
  exists s' go, step s o = Fine (s', go) /\
    inv s' ((if in_dash o then 1 else 0) + i) ((if out_dash o then 1 else 0) + j).
Proof.
  intros V HI HO. destruct o as [n|n| |]; cbn [step in_dash out_dash] in *.
  - destruct (Nat.leb 2 (k s)); [left; reflexivity|].
    destruct n; cbn [read_file fopen]; [| |left; reflexivity]; right.
    + assert (C : ~ In StdIn (closed s)).
      { intros X. apply (inv_in _ _ _ V) in X. rewrite HI in X by reflexivity. lia. }
      unfold use, fclose. rewrite (closed_not _ _ C). cbn [bind].
      rewrite (closed_not _ _ C). cbn [bind opened closed k outf].
      eexists _, true. split; [reflexivity|]. destruct V. split; cbn.
      * intros n [X|X]; [discriminate|auto].
      * lia.
      * intros [[X|X]|X]; [discriminate|auto|auto].
      * intros f F. destruct (inv_outf0 f F) as (A & B & D). repeat split; auto.
        intros [X|X]; [congruence|auto].
      * intros n L. destruct (inv_all0 n L); auto.
      * constructor; auto.
    + set (s1 := mkSt (S (opened s)) (closed s) (k s) (outf s)).
      assert (C : ~ In (File (opened s)) (closed s1)).
      { intros X. cbn in X. apply (inv_new _ _ _ V) in X. lia. }
      unfold use, fclose. rewrite (closed_not _ _ C). cbn [bind].
      rewrite (closed_not _ _ C). cbn [bind opened closed k outf s1].
      eexists _, true. split; [reflexivity|]. destruct V. split; cbn.
      * intros n [X|X]; [injection X as <-; lia|]. apply inv_new0 in X. lia.
      * intros [X|X]; [discriminate|auto].
      * intros [[X|X]|X]; [discriminate|auto|auto].
      * intros f F. destruct (inv_outf0 f F) as (A & B & D). repeat split; auto.
        -- intros [X|X]; [|auto]. symmetry in X. apply D in X. lia.
        -- intros n X. apply D in X. lia.
      * intros n L. destruct (Nat.eq_dec n (opened s)) as [->|N]; [auto|].
        destruct (inv_all0 n); [lia|auto|auto].
      * constructor; auto.
  - assert (Q : exists s1, close_out s = Fine s1 /\ opened s1 = opened s /\ k s1 = k s /\
        NoDup (closed s1) /\
        (forall f, In f (closed s1) <-> In f (closed s) \/ outf s = Some f)).
    { unfold close_out. destruct (outf s) as [f|] eqn:F.
      - destruct (inv_outf _ _ _ V f F) as (A & _). unfold fclose.
        rewrite (closed_not _ _ A). eexists. split; [reflexivity|]. cbn.
        split; [reflexivity|]. split; [reflexivity|]. split.
        + constructor; [exact A|apply V].
        + intros g. split; [intros [->|X]; auto|intros [X|X]; [auto|left; congruence]].
      - exists s. split; [reflexivity|]. split; [reflexivity|]. split; [reflexivity|].
        split; [apply V|]. intros g. split; [auto|]. intros [X|X]; [exact X|discriminate]. }
    destruct Q as (s1 & -> & Op & K & ND & Cl). cbn [bind].
    destruct n; cbn [create_file fopen bind]; [| |left; reflexivity]; right;
      eexists _, true; (split; [reflexivity|]); destruct V; split; cbn.
    + intros n X. apply Cl in X. rewrite Op. destruct X as [X|X]; [auto|].
      apply (inv_outf0 _ X). reflexivity.
    + intros X. apply Cl in X. destruct X as [X|X]; [auto|].
      destruct (inv_outf0 _ X) as (_ & B & _). congruence.
    + lia.
    + intros f [= <-]. repeat split; try discriminate. intros X. apply Cl in X.
      apply inv_out0 in X. rewrite HO in X by reflexivity. lia.
    + intros n L. rewrite Op in L. left. apply Cl. auto.
    + exact ND.
    + intros n X. apply Cl in X. rewrite Op. destruct X as [X|X]; [apply inv_new0 in X; lia|].
      destruct (inv_outf0 _ X) as (_ & _ & D). specialize (D n eq_refl). lia.
    + intros X. apply Cl in X. destruct X as [X|X]; [auto|].
      destruct (inv_outf0 _ X) as (_ & B & _). congruence.
    + intros [X|X]; [|discriminate]. apply Cl in X. auto.
    + intros f [= <-]. rewrite Op. repeat split; try discriminate.
      * intros X. apply Cl in X. destruct X as [X|X]; [apply inv_new0 in X; lia|].
        destruct (inv_outf0 _ X) as (_ & _ & D). specialize (D _ eq_refl). lia.
      * intros n [= <-]. lia.
    + rewrite Op. intros n L. destruct (Nat.eq_dec n (opened s)) as [->|N]; [auto|].
      left. apply Cl. apply inv_all0. lia.
    + exact ND.
  - right. exists s, true. auto.
  - right. exists s, false. auto.
Qed.

Lemma steps_spec os : forall s i j, inv s i j ->
  (i + count in_dash os <= 1)%nat -> (j + count out_dash os <= 1)%nat ->
  steps s os = Fatal \/ exists s' go i' j', steps s os = Fine (s', go) /\ inv s' i' j'.
Proof.
  induction os as [|o r IH]; intros s i j V HI HO; cbn [steps].
  - right. exists s, true, i, j. auto.
  - unfold count in *. cbn [filter] in *.
    destruct (step_spec s o i j V) as [E|(s' & go & E & V')].
    + intros X. rewrite X in HI. cbn in HI. lia.
    + intros X. rewrite X in HO. cbn in HO. lia.
    + rewrite E. left. reflexivity.
    + rewrite E. cbn [bind]. destruct go.
      * apply (IH _ _ _ V').
        -- destruct (in_dash o); cbn in *; lia.
        -- destruct (out_dash o); cbn in *; lia.
      * right. exists s', false. eauto.
Qed.

Lemma close_spec s i j : inv s i j ->
  exists s', close_out s = Fine s' /\ opened s' = opened s /\ NoDup (closed s') /\
    forall n, (n < opened s)%nat -> In (File n) (closed s').
Proof.
  intros V. unfold close_out. destruct (outf s) as [f|] eqn:F.
  - destruct (inv_outf _ _ _ V f F) as (A & _). unfold fclose. rewrite (closed_not _ _ A).
    eexists. split; [reflexivity|]. cbn. split; [reflexivity|].
    split; [constructor; [exact A|apply V]|].
    intros n L. destruct (inv_all _ _ _ V n L) as [X|X]; [auto|]. left. congruence.
  - exists s. split; [reflexivity|]. split; [reflexivity|]. split; [apply V|].
    intros n L. destruct (inv_all _ _ _ V n L) as [X|X]; [auto|congruence].
Qed.

Lemma gensrc_streams_spec fi op os :
  (count in_dash os <= 1)%nat -> (count out_dash os <= 1)%nat ->
  gensrc_streams fi op os = Fatal \/
  exists s, gensrc_streams fi op os = Fine s /\ NoDup (closed s) /\
    forall n, (n < opened s)%nat -> In (File n) (closed s).
Proof.
  intros HI HO. unfold gensrc_streams.
  destruct (steps_spec os _ 0 0 inv0 HI HO) as [E|(s & go & i & j & E & V)]; rewrite E;
    cbn [bind]; [left; reflexivity|].
  destruct (close_spec s i j V) as (s' & C & O & ND & A). rewrite <- O in A.
  destruct go; cbn [negb]; [|right; exists s'; auto].
  destruct (outf s) as [f|] eqn:F.
  - destruct op; [right; exists s'; auto|].
    destruct (Nat.ltb _ _); [left; reflexivity|].
    unfold use. destruct (inv_outf _ _ _ V f F) as (B & _). rewrite (closed_not _ _ B).
    cbn [bind]. right. exists s'. auto.
  - right. exists s. split; [reflexivity|]. split; [apply V|].
    intros n L. destruct (inv_all _ _ _ V n L) as [X|X]; [exact X|congruence].
Qed.
