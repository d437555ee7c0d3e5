From Coq Require Import String.
From Verif Require Import Base BaseProofs StorageModel TextModel LoptModel LoptProofs PkarcModel PkarcSpec.
Open Scope list_scope.

Lemma look_found {X} (l : list (text * X)) p x : look l p = Some x <-> found l p x.
Proof.
  induction l as [|[q y] l IH]; cbn [look].
  - split; [discriminate|]. intros (l1 & l2 & H & _). destruct l1; discriminate.
  - destruct (list_eqb q p) eqn:E.
    + apply list_eqb_eq in E. subst q. split.
      * intros H. apply some_inj in H. subst y. exists [], l. split; [reflexivity|intros y []].
      * intros (l1 & l2 & H & N). destruct l1 as [|[q z] l1]; cbn [app] in H.
        -- injection H as -> _. reflexivity.
        -- injection H as <- <- _. exfalso. apply (N y). left. reflexivity.
    + assert (D : q <> p) by (intros ->; assert (T : list_eqb p p = true) by (apply list_eqb_eq; reflexivity); congruence).
      rewrite IH. split.
      * intros (l1 & l2 & -> & N). exists ((q, y) :: l1), l2. split; [reflexivity|]. intros z [H|H]; [injection H as H _; exact (D H)|exact (N z H)].
      * intros (l1 & l2 & H & N). destruct l1 as [|[q' z] l1]; cbn [app] in H; injection H; intros; subst.
        -- exfalso. apply D. reflexivity.
        -- exists l1, l2. split; [reflexivity|]. intros z' I. apply (N z'). right. exact I.
Qed.
Lemma same_look {X} (l l' : list (text * X)) p : same_at l l' p <-> look l p = look l' p.
Proof.
  split; intros H.
  - destruct (look l p) as [x|] eqn:E.
    + symmetry. apply look_found, H, look_found, E.
    + destruct (look l' p) as [x|] eqn:E'; [|reflexivity]. apply look_found, H, look_found in E'. congruence.
  - intros x. rewrite <- !look_found, H. reflexivity.
Qed.
Lemma missing_look {X} (l : list (text * X)) p : missing l p <-> look l p = None.
Proof.
  split; intros H.
  - destruct (look l p) as [x|] eqn:E; [|reflexivity]. exfalso. exact (H x (proj1 (look_found _ _ _) E)).
  - intros x F. apply look_found in F. congruence.
Qed.
Lemma under_inside d p : under d p = true <-> inside d p.
Proof.
  unfold under, inside. rewrite orb_true_iff, list_eqb_eq, begins_spec. split; (intros [H|(r & H)]; [left; congruence|right]).
  - exists r. rewrite H, <- app_assoc. reflexivity.
  - exists r. rewrite H, <- app_assoc. reflexivity.
Qed.
Lemma look_filter {X} (f : text -> bool) (l : list (text * X)) p :
  look (filter (fun e => f (fst e)) l) p = if f p then look l p else None.
Proof.
  induction l as [|[q y] l IH]; cbn [filter look fst]; [destruct (f p); reflexivity|].
  destruct (list_eqb q p) eqn:E.
  - apply list_eqb_eq in E. subst q. destruct (f p) eqn:F; cbn [look]; [|exact IH].
    assert (T : list_eqb p p = true) by (apply list_eqb_eq; reflexivity). rewrite T. reflexivity.
  - destruct (f q); cbn [look]; [rewrite E|]; exact IH.
Qed.
Lemma look_kept {X} ds (l : list (text * X)) p :
  look (kept ds l) p = if existsb (fun d => under d p) ds then None else look l p.
Proof.
  unfold kept. rewrite (look_filter (fun q => negb (existsb (fun d => under d q) ds))). destruct (existsb _ ds); reflexivity.
Qed.
Lemma look_app {X} (l l' : list (text * X)) p : look (l ++ l') p = match look l p with Some x => Some x | None => look l' p end.
Proof. induction l as [|[q y] l IH]; cbn [app look]; [reflexivity|]. destruct (list_eqb q p); [reflexivity|exact IH]. Qed.
Lemma stored_full p : full p -> 47 :: stored p = p.
Proof.
  intros (c & r & -> & N). cbn [stored]. change (47 =? 47) with true. cbv iota. apply Z.eqb_neq in N. rewrite N. reflexivity.
Qed.
Lemma inside_full d p : full d -> inside d p -> full p.
Proof.
  intros (c & r & -> & N) [->|(s & ->)]; [exists c, r; split; [reflexivity|exact N]|].
  exists c, (r ++ 47 :: s). split; [reflexivity|exact N].
Qed.
Lemma there_and_back l : (forall e, In e l -> full (fst e)) -> map extracted (map member l) = l.
Proof.
  intros F. induction l as [|[p c] l IH]; [reflexivity|]. cbn [map]. unfold extracted at 1, member at 1. cbn [fst snd].
  rewrite (stored_full p) by (apply (F (p, c)); left; reflexivity). rewrite IH; [reflexivity|]. intros e I. apply F. right. exact I.
Qed.
Lemma here_fits pat : forall line, here pat line = true <-> exists s b, line = s ++ b /\ fits pat s.
Proof.
  induction pat as [|p pat IH]; intros line.
  - cbn [here]. split; [|reflexivity]. intros _. exists [], line. split; [reflexivity|constructor].
  - destruct line as [|c line]; cbn [here].
    + split; [discriminate|]. intros (s & b & E & F). inversion F; subst. discriminate.
    + rewrite andb_true_iff, orb_true_iff, !Z.eqb_eq, IH. split.
      * intros [H (s & b & -> & F)]. exists (c :: s), b. split; [reflexivity|]. constructor; assumption.
      * intros (s & b & E & F). inversion F as [|p' c' pat' s' H F']; subst. cbn [app] in E. injection E as -> ->.
        split; [exact H|]. exists s', b. split; [reflexivity|exact F'].
Qed.
Lemma grep_fits pat line : grep pat line = true <-> part_fits pat line.
Proof.
  induction line as [|c line IH]; cbn [grep].
  - rewrite orb_false_r, here_fits. split.
    + intros (s & b & E & F). exists [], s, b. split; [exact E|exact F].
    + intros (a & s & b & E & F). destruct a; [|discriminate]. exists s, b. split; [exact E|exact F].
  - rewrite orb_true_iff, here_fits, IH. split.
    + intros [(s & b & E & F)|(a & s & b & -> & F)]; [exists [], s, b|exists (c :: a), s, b]; (split; [first [exact E|reflexivity]|exact F]).
    + intros (a & s & b & E & F). destruct a as [|d a]; cbn [app] in E; [left; exists s, b; split; [exact E|exact F]|].
      injection E as -> ->. right. exists a, s, b. split; [reflexivity|exact F].
Qed.
