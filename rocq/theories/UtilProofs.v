From Coq Require Import String.
From Verif Require Import Base BaseProofs StorageModel TextModel LoptModel LoptProofs UtilModel UtilSpec.
Open Scope list_scope.

Lemma leq a b : list_eqb a b = true <-> a = b.
Proof. apply list_eqb_eq. Qed.
Lemma dir_stands exec path n d : dir_with exec path n = Some d <-> stands_in exec path n d.
Proof.
  induction path as [|e path IH]; cbn [dir_with].
  - split; [discriminate|]. intros (l1 & l2 & H & _). destruct l1; discriminate.
  - change (at_dir e n) with (e ++ 47 :: n). destruct (exec (e ++ 47 :: n)) eqn:X.
    + split.
      * intros H. apply some_inj in H. subst d. exists [], path. split; [reflexivity|]. split; [exact X|intros d' []].
      * intros (l1 & l2 & H & Y & N). destruct l1 as [|f l1]; cbn [app] in H; injection H; intros; subst; [reflexivity|].
        rewrite (N f (or_introl eq_refl)) in X. discriminate.
    + rewrite IH. split.
      * intros (l1 & l2 & -> & Y & N). exists (e :: l1), l2. split; [reflexivity|]. split; [exact Y|]. intros d' [<-|I]; [exact X|exact (N d' I)].
      * intros (l1 & l2 & H & Y & N). destruct l1 as [|f l1]; cbn [app] in H; injection H; intros; subst; [congruence|].
        exists l1, l2. split; [reflexivity|]. split; [exact Y|]. intros d' I. apply N. right. exact I.
Qed.
Lemma lookup_dir exec path n : lookup exec path n = match dir_with exec path n with Some d => Some (d ++ 47 :: n) | None => None end.
Proof. induction path as [|e path IH]; cbn [dir_with lookup]; [reflexivity|]. destruct (exec (at_dir e n)); [reflexivity|exact IH]. Qed.
Lemma lookup_stands exec path n p : lookup exec path n = Some p <-> stands_for exec path n p.
Proof.
  rewrite lookup_dir. split.
  - destruct (dir_with exec path n) as [d|] eqn:E; [|discriminate]. intros H. apply some_inj in H. exists d. split; [apply dir_stands, E|symmetry; exact H].
  - intros (d & S & ->). apply dir_stands in S. rewrite S. reflexivity.
Qed.
(** Two full names with simple last parts *)
Lemma same_last d e n m : ~ In 47 n -> ~ In 47 m -> d ++ 47 :: n = e ++ 47 :: m -> n = m.
Proof.
  revert e. induction d as [|x d IH]; intros e N M H.
  - destruct e as [|y e]; cbn [app] in H; [injection H as H; exact H|]. injection H as _ H. exfalso. apply N. rewrite H. apply in_or_app. right. left. reflexivity.
  - destruct e as [|y e]; cbn [app] in H; [injection H as _ H; exfalso; apply M; rewrite <- H; apply in_or_app; right; left; reflexivity|].
    injection H as _ H. exact (IH e N M H).
Qed.
Lemma compiler_simple n : compiler n -> ~ In 47 n.
Proof. intros [<-|[<-|[<-|[<-|[]]]]] I; cbn in I; intuition discriminate. Qed.
Lemma links_replaced exec n : In n (links exec) <-> replaced exec n.
Proof.
  unfold links, replaced, compiler. rewrite filter_In. change (at_dir (str "/usr/bin") n) with (str "/usr/bin/" ++ n).
  assert (C : list_eqb n (str "cc") = true <-> n = str "cc") by apply leq.
  split; intros [I X]; (split; [cbn [In] in *; tauto|]).
  - destruct (list_eqb n (str "cc")); [left; apply C; reflexivity|right; exact X].
  - destruct X as [->|X]; [reflexivity|]. destruct (list_eqb n (str "cc")); [reflexivity|exact X].
Qed.
Lemma is_link_in exec tmp p : is_link exec tmp p = true <-> exists n, replaced exec n /\ p = tmp ++ 47 :: n.
Proof.
  unfold is_link. rewrite existsb_exists. split; intros (n & I & H); exists n.
  - split; [apply links_replaced, I|apply leq in H; exact H].
  - split; [apply links_replaced, I|apply leq; exact H].
Qed.
Lemma link_name exec tmp d n : ~ In 47 n -> is_link exec tmp (d ++ 47 :: n) = true -> replaced exec n.
Proof.
  intros N L. apply is_link_in in L. destruct L as (m & [C R] & E).
  assert (n = m) by (apply (same_last _ _ _ _ N (compiler_simple m C) E)). subst m. split; assumption.
Qed.
Section Over.
Variable exec : text -> bool.
Variable path : list text.
Variable tmp : text.
Hypothesis F : fresh exec tmp.
(** A command that is not replaced is looked up as before *)
Lemma lookup_same n : ~ In 47 n -> ~ replaced exec n -> forall l, lookup (exec' exec path tmp) l n = lookup exec l n.
Proof.
  intros N R l. induction l as [|d l IH]; [reflexivity|]. cbn [lookup]. change (at_dir d n) with (d ++ 47 :: n). unfold exec' at 1.
  destruct (is_link exec tmp (d ++ 47 :: n)) eqn:L; [exfalso; apply R; exact (link_name _ _ _ _ N L)|]. rewrite IH. reflexivity.
Qed.
Lemma after_same n : ~ In 47 n -> ~ replaced exec n -> runs_after exec path tmp n = runs_before exec path n.
Proof.
  intros N R. unfold runs_after, runs_before, path'. rewrite (lookup_same n N R). cbn [lookup]. change (at_dir tmp n) with (tmp ++ 47 :: n). rewrite (F n).
  destruct (lookup exec path n) as [p|] eqn:E; [|reflexivity]. apply lookup_stands in E. destruct E as (d & _ & ->).
  destruct (is_link exec tmp (d ++ 47 :: n)) eqn:L; [exfalso; apply R; exact (link_name _ _ _ _ N L)|]. reflexivity.
Qed.
Lemma link_there n : replaced exec n -> is_link exec tmp (tmp ++ 47 :: n) = true.
Proof. intros R. apply is_link_in. exists n. split; [exact R|reflexivity]. Qed.
Lemma target_abs p : stands_for exec path (str "libcare-cc") p -> absolute p -> target exec path tmp = p /\ exec p = true.
Proof.
  intros (d & S & ->) (r & A). pose proof (proj2 (dir_stands _ _ _ _) S) as E. unfold target, kpatch_path. rewrite E. cbv zeta.
  change (at_dir d (str "libcare-cc")) with (d ++ 47 :: str "libcare-cc").
  replace (begins (str "/") (d ++ 47 :: str "libcare-cc")) with true by (symmetry; apply begins_spec; exists r; exact A).
  split; [reflexivity|]. destruct S as (l1 & l2 & _ & X & _). exact X.
Qed.
Lemma target_works : exec (target exec path tmp) = true -> exists p, absolute p /\ stands_for exec path (str "libcare-cc") p.
Proof.
  unfold target. cbv zeta. destruct (begins (str "/") (at_dir (kpatch_path exec path) (str "libcare-cc"))) eqn:B.
  - intros _. apply begins_spec in B. destruct B as (r & B). unfold kpatch_path in B. destruct (dir_with exec path (str "libcare-cc")) as [d|] eqn:E; [|discriminate].
    exists (d ++ 47 :: str "libcare-cc"). split; [exists r; exact B|]. exists d. split; [apply dir_stands, E|reflexivity].
  - intros X. exfalso. pose proof (F (at_dir (kpatch_path exec path) (str "libcare-cc"))) as N. change (tmp ++ 47 :: ?x) with (at_dir tmp x) in N. congruence.
Qed.
Lemma cc_replaced : replaced exec (str "cc").
Proof. split; [left; reflexivity|left; reflexivity]. Qed.
Lemma over_works : overwritten exec path tmp = true <-> exec (target exec path tmp) = true.
Proof.
  unfold overwritten, path'. cbn [lookup]. change (at_dir tmp (str "cc")) with (tmp ++ 47 :: str "cc"). unfold exec' at 1. rewrite (link_there _ cc_replaced).
  destruct (exec (target exec path tmp)) eqn:X; [split; [reflexivity|intros _; apply leq; reflexivity]|]. split; [|discriminate].
  intros H. exfalso. destruct (lookup (exec' exec path tmp) path (str "cc")) as [p|] eqn:L; [|discriminate]. apply leq in H. subst p.
  apply lookup_stands in L. destruct L as (d & (l1 & l2 & _ & Y & _) & E). rewrite <- E in Y. unfold exec' in Y. rewrite (link_there _ cc_replaced) in Y. congruence.
Qed.
Lemma after_link n : exec (target exec path tmp) = true -> replaced exec n -> runs_after exec path tmp n = Some (target exec path tmp).
Proof.
  intros X R. unfold runs_after, path'. cbn [lookup]. change (at_dir tmp n) with (tmp ++ 47 :: n). unfold exec' at 1. rewrite (link_there _ R), X, (link_there _ R). reflexivity.
Qed.
End Over.
