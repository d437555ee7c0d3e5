From Coq Require Import String.
From Verif Require Import Base BaseProofs StorageModel PkgModel PkgProofs InstModel InstSpec InstProofs BackModel.
Open Scope list_scope.

Definition pair_words (l : pairs) : list (list Z) := concat (map (fun e => [fst e; snd e]) l).
Lemma pair_cons b i l : pair_words ((b, i) :: l) = b :: i :: pair_words l.
Proof. reflexivity. Qed.
Lemma back_other src l : forall dest r n, install_back src (pair_words l) dest = Some r ->
  (forall b i, installs l b i -> no_slashes b <> n) -> get n r = get n dest.
Proof.
  induction l as [|[b i] l IH]; intros dest r n H Q; rewrite ?pair_cons in H; cbn [pair_words map concat install_back] in H.
  - apply some_inj in H. subst. reflexivity.
  - assert (Q' : forall b' i', installs l b' i' -> no_slashes b' <> n) by (intros b' i' (I & N); apply (Q b' i'); split; [right; exact I|exact N]).
    destruct (list_eqb i (str "IGNORE")) eqn:E; [exact (IH _ _ _ H Q')|].
    destruct (src (no_slashes i)) as [c|]; [|discriminate H]. rewrite (IH _ _ _ H Q'), get_put.
    destruct (list_eqb (no_slashes b) n) eqn:En; [|reflexivity]. apply list_eqb_eq in En. exfalso. apply (Q b i); [|exact En].
    split; [left; reflexivity|]. intros ->. rewrite eqb_self in E. discriminate.
Qed.
Lemma back_has src l : forall dest r n c, install_back src (pair_words l) dest = Some r ->
  (forall b i, installs l b i -> no_slashes b = n -> src (no_slashes i) = Some c) ->
  (exists b i, installs l b i /\ no_slashes b = n) \/ get n dest = Some c -> get n r = Some c.
Proof.
  induction l as [|[b i] l IH]; intros dest r n c H Q S; rewrite ?pair_cons in H; cbn [pair_words map concat install_back] in H.
  - apply some_inj in H. subst. destruct S as [(b & i & ([] & _) & _)|S]; exact S.
  - assert (Q' : forall b' i', installs l b' i' -> no_slashes b' = n -> src (no_slashes i') = Some c) by (intros b' i' (I & N); apply Q; split; [right; exact I|exact N]).
    destruct (list_eqb i (str "IGNORE")) eqn:E.
    + apply list_eqb_eq in E. apply (IH _ _ _ _ H Q'). destruct S as [(b' & i' & ([I|I] & N) & En)|S]; [injection I; intros; subst; contradiction|left; exists b', i'; split; [split; assumption|exact En]|right; exact S].
    + assert (Ni : i <> str "IGNORE") by (intros ->; rewrite eqb_self in E; discriminate E).
      destruct (src (no_slashes i)) as [c0|] eqn:S0; [|discriminate H]. apply (IH _ _ _ _ H Q'). rewrite get_put.
      destruct (list_eqb (no_slashes b) n) eqn:En.
      * apply list_eqb_eq in En. right. rewrite <- S0. apply (Q b i); [split; [left; reflexivity|exact Ni]|exact En].
      * destruct S as [(b' & i' & ([I|I] & N) & Eb)|S].
        -- injection I; intros; subst. rewrite eqb_self in En. discriminate.
        -- left. exists b', i'. split; [split; assumption|exact Eb].
        -- right. exact S.
Qed.
Lemma back_fails src l : forall dest, install_back src (pair_words l) dest = None <-> exists b i, installs l b i /\ src (no_slashes i) = None.
Proof.
  induction l as [|[b i] l IH]; intros dest; rewrite ?pair_cons; cbn [pair_words map concat install_back].
  - split; [discriminate|]. intros (b & i & ([] & _) & _).
  - destruct (list_eqb i (str "IGNORE")) eqn:E.
    + apply list_eqb_eq in E. rewrite IH. split; intros (b' & i' & (I & N) & S); exists b', i'; (split; [split; [|exact N]|exact S]); [right; exact I|].
      destruct I as [I|I]; [injection I; intros; subst; contradiction|exact I].
    + assert (Ni : i <> str "IGNORE") by (intros ->; rewrite eqb_self in E; discriminate E).
      destruct (src (no_slashes i)) as [c0|] eqn:S0.
      * rewrite IH. split; intros (b' & i' & (I & N) & S); exists b', i'; (split; [split; [|exact N]|exact S]); [right; exact I|].
        destruct I as [I|I]; [injection I; intros; subst; congruence|exact I].
      * split; [intros _|reflexivity]. exists b, i. split; [split; [left; reflexivity|exact Ni]|exact S0].
Qed.
