(** Proofs about linked lists. *)
From Coq Require Import Lia.
From Verif Require Import Base TextModel ListModel ListSpec.
Open Scope list_scope.

Lemma alive_nxt h a : h a <> None <-> nxt h a <> None.
Proof. unfold nxt. destruct (h a); cbn; split; congruence. Qed.
Lemma alive_prv h a : h a <> None <-> prv h a <> None.
Proof. unfold prv. destruct (h a); cbn; split; congruence. Qed.
Lemma next_ok h a b : nxt h a = Some b -> next a h = Ok b.
Proof. unfold nxt, next. destruct (h a); cbn; congruence. Qed.
Lemma prev_ok h a b : prv h a = Some b -> prev a h = Ok b.
Proof. unfold prv, prev. destruct (h a); cbn; congruence. Qed.

Lemma set_next_spec a v h : h a <> None -> exists h', set_next a v h = Ok h' /\
  (forall b, nxt h' b = if b =? a then Some v else nxt h b) /\ (forall b, prv h' b = prv h b) /\
  (forall b, b <> a -> h' b = h b).
Proof.
  intro A. unfold set_next. destruct (h a) as [n|] eqn:E; [|congruence]. eexists. split; [reflexivity|]. unfold nxt, prv, upd.
  split; [|split]; intro b; destruct (Z.eqb_spec b a) as [->|N]; try reflexivity; [now rewrite E|contradiction].
Qed.
Lemma set_prev_spec a v h : h a <> None -> exists h', set_prev a v h = Ok h' /\
  (forall b, prv h' b = if b =? a then Some v else prv h b) /\ (forall b, nxt h' b = nxt h b) /\
  (forall b, b <> a -> h' b = h b).
Proof.
  intro A. unfold set_prev. destruct (h a) as [n|] eqn:E; [|congruence]. eexists. split; [reflexivity|]. unfold nxt, prv, upd.
  split; [|split]; intro b; destruct (Z.eqb_spec b a) as [->|N]; try reflexivity; [now rewrite E|contradiction].
Qed.

Ltac eqz := repeat match goal with
  | |- context [?a =? ?b] => destruct (Z.eqb_spec a b); subst
  | H : context [?a =? ?b] |- _ => destruct (Z.eqb_spec a b); subst end; try congruence.

Lemma add_between_spec x p n h : h n <> None -> h x <> None -> h p <> None -> x <> p -> x <> n ->
  exists h', list_add_between x p n h = Ok h' /\
  (forall b, nxt h' b = if b =? p then Some x else if b =? x then Some n else nxt h b) /\
  (forall b, prv h' b = if b =? n then Some x else if b =? x then Some p else prv h b) /\
  (forall b, b <> x -> b <> p -> b <> n -> h' b = h b).
Proof.
  intros An Ax Ap Np Nn. unfold list_add_between.
  destruct (set_prev_spec n x h An) as (h1 & E1 & P1 & N1 & O1). rewrite E1. cbn [rbind].
  destruct (set_next_spec x n h1) as (h2 & E2 & N2 & P2 & O2); [rewrite alive_nxt, N1, <- alive_nxt; exact Ax|]. rewrite E2. cbn [rbind].
  destruct (set_prev_spec x p h2) as (h3 & E3 & P3 & N3 & O3).
  { rewrite alive_nxt, N2. destruct (x =? x); [discriminate|]. rewrite N1. now rewrite <- alive_nxt. }
  rewrite E3. cbn [rbind].
  destruct (set_next_spec p x h3) as (h4 & E4 & N4 & P4 & O4).
  { rewrite alive_nxt, N3, N2. destruct (p =? x); [discriminate|]. rewrite N1. now rewrite <- alive_nxt. }
  exists h4. split; [exact E4|]. split; [|split].
  - intro b. rewrite N4, N3, N2, N1. reflexivity.
  - intro b. rewrite P4, P3, P2, P1. eqz.
  - intros b B1 B2 B3. rewrite O4, O3, O2, O1; auto.
Qed.

Lemma linked_alive h a l b : linked h a l b -> forall x, In x (a :: l) \/ x = b -> h x <> None.
Proof.
  revert a. induction l as [|y r IH]; intros a L x I; cbn in L.
  - destruct L as (A & B). destruct I as [[<-|[]]| ->]; [rewrite alive_nxt|rewrite alive_prv]; congruence.
  - destruct L as (A & B & L). destruct I as [[<-|I]| ->].
    + rewrite alive_nxt. congruence.
    + apply (IH y L). now left.
    + apply (IH y L). now right.
Qed.
Lemma linked_app h a l1 y l2 b : linked h a (l1 ++ y :: l2) b <-> linked h a l1 y /\ linked h y l2 b.
Proof.
  revert a. induction l1 as [|x r IH]; intros a; cbn; [tauto|]. rewrite IH. tauto.
Qed.
Lemma linked_frame h h' a l b : (forall x, In x (a :: l) -> nxt h' x = nxt h x) -> (forall x, In x (l ++ [b]) -> prv h' x = prv h x) ->
  linked h a l b -> linked h' a l b.
Proof.
  revert a. induction l as [|x r IH]; intros a N P L; cbn in L |- *.
  - destruct L as (A & B). rewrite N by (now left). rewrite P by (now left). now split.
  - destruct L as (A & B & L). rewrite N by (now left). rewrite P by (now left). split; [exact A|]. split; [exact B|].
    apply IH; [intros y I; apply N; now right|intros y I; apply P; now right|exact L].
Qed.
Lemma linked_last h a l b p : linked h a l b -> prv h b = Some p -> exists l0, a :: l = l0 ++ [p].
Proof.
  revert a. induction l as [|x r IH]; intros a L E; cbn in L.
  - destruct L as (_ & B). exists []. rewrite B in E. now injection E as <-.
  - destruct L as (_ & _ & L). destruct (IH x L E) as (l0 & ->). now exists (a :: l0).
Qed.

(** Adding before [y] at the end of a chain *)
Lemma linked_insert h h' a l y x p :
  linked h a l y -> prv h y = Some p -> NoDup (a :: l) -> ~ In y l -> ~ In x (a :: l) -> x <> y ->
  (forall b, nxt h' b = if b =? p then Some x else if b =? x then Some y else nxt h b) ->
  (forall b, prv h' b = if b =? y then Some x else if b =? x then Some p else prv h b) ->
  linked h' a (l ++ [x]) y.
Proof.
  intros L E ND Ny Nx Nxy Hn Hp. revert a L ND Nx. induction l as [|z r IH]; intros a L ND Nx; cbn in L |- *.
  - destruct L as (A & B). rewrite B in E. injection E as <-. rewrite !Hn, !Hp, !Z.eqb_refl.
    destruct (Z.eqb_spec x y); [contradiction|]. destruct (Z.eqb_spec x a) as [e|_]; [exfalso; apply Nx; now left|]. repeat split.
  - destruct L as (A & B & L). inversion ND as [|? ? Na NDr]; subst.
    destruct (linked_last h z r y p L E) as (l0 & El).
    assert (Ip : In p (z :: r)) by (rewrite El; apply in_or_app; right; now left).
    rewrite Hn, Hp. destruct (Z.eqb_spec a p) as [->|_]; [contradiction|].
    destruct (Z.eqb_spec a x) as [->|_]; [exfalso; apply Nx; now left|].
    destruct (Z.eqb_spec z y) as [->|_]; [exfalso; apply Ny; now left|].
    destruct (Z.eqb_spec z x) as [->|_]; [exfalso; apply Nx; right; now left|].
    split; [exact A|]. split; [exact B|]. apply IH; auto.
    + intro I. apply Ny. now right.
    + intro I. apply Nx. now right.
Qed.

Lemma linked_prv h a l b : linked h a l b -> exists p, prv h b = Some p /\ In p (a :: l).
Proof.
  revert a. induction l as [|x r IH]; intros a L; cbn in L.
  - exists a. split; [tauto|now left].
  - destruct (IH x) as (p & E & I); [tauto|]. exists p. split; [exact E|]. now right.
Qed.
Lemma linked_nxt h a l b : linked h a l b -> nxt h a = Some (hd b l).
Proof. destruct l; cbn; tauto. Qed.

Lemma NoDup_app_iff (l1 l2 : list Z) : NoDup (l1 ++ l2) <-> NoDup l1 /\ NoDup l2 /\ (forall x, In x l1 -> ~ In x l2).
Proof.
  induction l1 as [|x r IH]; cbn.
  - split; [intro H; repeat split; [constructor|exact H|easy]|tauto].
  - split.
    + intro H. inversion H as [|? ? N D]; subst. apply IH in D as (A & B & C). split; [constructor; [intro I; apply N; apply in_or_app; now left|exact A]|].
      split; [exact B|]. intros y [<-|I]; [intro J; apply N; apply in_or_app; now right|now apply C].
    + intros (A & B & C). inversion A as [|? ? N D]; subst. constructor.
      * intro I. apply in_app_or in I as [I|I]; [contradiction|]. now apply (C x (or_introl eq_refl)).
      * apply IH. split; [exact D|]. split; [exact B|]. intros y I. apply C. now right.
Qed.

(** list_add of [x] with [y], the head or an entry of the list: just before it *)
Lemma list_add_ring h hd l1 l2 y x :
  (l2 = [] /\ y = hd \/ exists r, l2 = y :: r) ->
  ring h hd (l1 ++ l2) -> h x <> None -> ~ In x (hd :: l1 ++ l2) ->
  exists h', list_add x y h = Ok h' /\ ring h' hd (l1 ++ x :: l2) /\
    (forall b, b <> x -> ~ In b (hd :: l1 ++ l2) -> h' b = h b).
Proof.
  intros Y (ND & L) Ax Nx.
  (* the chain up to y *)
  assert (L1 : linked h hd l1 y /\ (forall h', linked h' hd (l1 ++ [x]) y -> (exists r, l2 = y :: r) -> linked h' y (tl l2) hd -> linked h' hd (l1 ++ x :: l2) hd)).
  { destruct Y as [(-> & ->)|(r & ->)].
    - rewrite app_nil_r in L. split; [exact L|]. intros h' _ (r & e). discriminate.
    - apply linked_app in L as (A & B). split; [exact A|]. intros h' A' _ B'. change (x :: y :: r) with ([x] ++ y :: r). rewrite app_assoc.
      apply linked_app. now split. }
  destruct L1 as (L1 & _).
  destruct (linked_prv h hd l1 y L1) as (p & Ep & Ip).
  assert (Nxp : x <> p) by (intros ->; apply Nx; destruct Ip as [<-|Ip]; [now left|right; apply in_or_app; now left]).
  assert (Nxy : x <> y).
  { intros ->. apply Nx. destruct Y as [(_ & ->)|(r & ->)]; [now left|]. right. apply in_or_app. right. now left. }
  assert (Ay : h y <> None) by (apply (linked_alive h hd l1 y L1); now right).
  assert (App : h p <> None) by (apply (linked_alive h hd l1 y L1); now left).
  unfold list_add. rewrite (prev_ok _ _ _ Ep). cbn [rbind].
  destruct (add_between_spec x p y h Ay Ax App Nxp Nxy) as (h' & E & Hn & Hp & Ho).
  exists h'. split; [exact E|].
  assert (ND1 : NoDup (hd :: l1) /\ ~ In y l1).
  { change (hd :: l1 ++ l2) with ((hd :: l1) ++ l2) in ND. apply NoDup_app_iff in ND as (A & B & C). split; [exact A|].
    intro I. destruct Y as [(_ & ->)|(r & ->)].
    - inversion A; contradiction.
    - apply (C y); [now right|now left]. }
  destruct ND1 as (ND1 & Nyl).
  assert (LX : linked h' hd (l1 ++ [x]) y).
  { apply (linked_insert h h' hd l1 y x p); auto. intro I. apply Nx. destruct I as [<-|I]; [now left|]. right. apply in_or_app. now left. }
  split; [split|].
  - change (hd :: l1 ++ x :: l2) with ((hd :: l1) ++ x :: l2). change (hd :: l1 ++ l2) with ((hd :: l1) ++ l2) in ND, Nx.
    apply NoDup_app_iff in ND as (A & B & C). apply NoDup_app_iff. split; [exact A|]. split.
    + constructor; [|exact B]. intro I. apply Nx. apply in_or_app. now right.
    + intros b I [->|J]; [|now apply (C b I)]. apply Nx. apply in_or_app. now left.
  - destruct Y as [(-> & ->)|(r & ->)]; [exact LX|].
    change (x :: y :: r) with ([x] ++ y :: r). rewrite app_assoc. apply linked_app. split; [exact LX|].
    apply linked_app in L as (_ & L). apply (linked_frame h h' y r hd).
    + intros z I. rewrite Hn. change (hd :: l1 ++ y :: r) with ((hd :: l1) ++ y :: r) in ND, Nx. apply NoDup_app_iff in ND as (_ & _ & C).
      destruct (Z.eqb_spec z p) as [->|_]; [exfalso; now apply (C p Ip)|].
      destruct (Z.eqb_spec z x) as [->|_]; [exfalso; apply Nx; apply in_or_app; now right|]. reflexivity.
    + intros z I. rewrite Hp. change (hd :: l1 ++ y :: r) with ((hd :: l1) ++ y :: r) in ND, Nx.
      destruct (Z.eqb_spec z y) as [->|_].
      { exfalso. apply NoDup_app_iff in ND as (A & B & C). apply in_app_or in I as [I|[<-|[]]].
        - inversion B; contradiction.
        - apply (C hd); now left. }
      destruct (Z.eqb_spec z x) as [->|_]; [|reflexivity].
      exfalso. apply Nx. apply in_app_or in I as [I|[<-|[]]]; [apply in_or_app; right; now right|now left].
    + exact L.
  - intros b Bx Bn. apply Ho; [exact Bx| |].
    + intros ->. apply Bn. destruct Ip as [<-|Ip]; [now left|]. right. apply in_or_app. now left.
    + intros ->. apply Bn. destruct Y as [(_ & ->)|(r & ->)]; [now left|]. right. apply in_or_app. right. now left.
Qed.

(** list_add_head is list_add with the first entry. *)
Lemma list_add_head_ring h hd l x :
  ring h hd l -> h x <> None -> ~ In x (hd :: l) ->
  exists h', list_add_head x hd h = Ok h' /\ ring h' hd (x :: l) /\ (forall b, b <> x -> ~ In b (hd :: l) -> h' b = h b).
Proof.
  intros R Ax Nx. destruct l as [|y r].
  - destruct (list_add_ring h hd [] [] hd x) as (h' & E & R' & O); auto.
    exists h'. split; [|now split]. destruct R as (_ & A & B). unfold list_add_head. rewrite (next_ok _ _ _ A). cbn [rbind].
    unfold list_add in E. rewrite (prev_ok _ _ _ B) in E. exact E.
  - destruct (list_add_ring h hd [] (y :: r) y x) as (h' & E & R' & O); eauto.
    exists h'. split; [|now split]. destruct R as (_ & A & B & L). unfold list_add_head. rewrite (next_ok _ _ _ A). cbn [rbind].
    unfold list_add in E. rewrite (prev_ok _ _ _ B) in E. exact E.
Qed.

Lemma linked_cut h h' a l x q p :
  linked h a l x -> prv h x = Some p -> NoDup (a :: l) -> ~ In q l -> 
  (forall b, nxt h' b = if b =? p then Some q else nxt h b) ->
  (forall b, prv h' b = if b =? q then Some p else prv h b) ->
  linked h' a l q.
Proof.
  intros L E ND Nq Hn Hp. revert a L ND. induction l as [|z r IH]; intros a L ND; cbn in L |- *.
  - destruct L as (A & B). rewrite B in E. injection E as <-. now rewrite Hn, Hp, !Z.eqb_refl.
  - destruct L as (A & B & L). inversion ND as [|? ? Na NDr]; subst.
    destruct (linked_last h z r x p L E) as (l0 & El).
    assert (Ip : In p (z :: r)) by (rewrite El; apply in_or_app; right; now left).
    rewrite Hn, Hp. destruct (Z.eqb_spec a p) as [->|_]; [contradiction|].
    destruct (Z.eqb_spec z q) as [->|_]; [exfalso; apply Nq; now left|].
    split; [exact A|]. split; [exact B|]. apply IH; auto. intro I. apply Nq. now right.
Qed.

Lemma list_del_ring h hd l1 x l2 :
  ring h hd (l1 ++ x :: l2) ->
  exists h', list_del x h = Ok h' /\ ring h' hd (l1 ++ l2) /\ h' x = h x /\
    (forall b, ~ In b (hd :: l1 ++ l2) -> h' b = h b).
Proof.
  intros (ND & L). apply linked_app in L as (L1 & L2).
  destruct (linked_prv h hd l1 x L1) as (p & Ep & Ip). pose proof (linked_nxt h x l2 hd L2) as En. set (q := List.hd hd l2) in *.
  change (hd :: l1 ++ x :: l2) with ((hd :: l1) ++ x :: l2) in ND. apply NoDup_app_iff in ND as (NA & NB & NC).
  inversion NB as [|? ? Nx NB2]; subst.
  assert (Iq : In q (hd :: l2)) by (unfold q; destruct l2; [now left|right; now left]).
  assert (Aq : h q <> None) by (apply (linked_alive h x l2 hd L2); destruct Iq as [<-|I]; [now right|left; now right]).
  assert (App : h p <> None) by (apply (linked_alive h hd l1 x L1); now left).
  unfold list_del. rewrite (prev_ok _ _ _ Ep), (next_ok _ _ _ En). cbn [rbind].
  destruct (set_prev_spec q p h Aq) as (h1 & E1 & P1 & N1 & O1). rewrite E1. cbn [rbind].
  destruct (set_next_spec p q h1) as (h' & E2 & N2 & P2 & O2); [rewrite alive_nxt, N1, <- alive_nxt; exact App|].
  exists h'. split; [exact E2|].
  assert (Hn : forall b, nxt h' b = if b =? p then Some q else nxt h b) by (intro b; now rewrite N2, N1).
  assert (Hp : forall b, prv h' b = if b =? q then Some p else prv h b) by (intro b; now rewrite P2, P1).
  assert (Xp : x <> p) by (intros ->; apply (NC p Ip); now left).
  assert (Xq : x <> q).
  { intros e. destruct Iq as [I|I].
    - apply (NC hd); [now left|]. left. congruence.
    - rewrite <- e in I. contradiction. }
  split; [split|split].
  - change (hd :: l1 ++ l2) with ((hd :: l1) ++ l2). apply NoDup_app_iff. split; [exact NA|]. split; [exact NB2|].
    intros b I J. apply (NC b I). now right.
  - assert (LQ : linked h' hd l1 q).
    { apply (linked_cut h h' hd l1 x q p); auto. intro I. destruct Iq as [<-|J]; [inversion NA; contradiction|]. apply (NC q); [now right|now right]. }
    destruct l2 as [|y r]; [rewrite app_nil_r; exact LQ|]. cbn in q. subst q. apply linked_app. split; [exact LQ|].
    destruct L2 as (_ & _ & L2). inversion NB2 as [|? ? Ny NDr]; subst. apply (linked_frame h h' y r hd); [| |exact L2].
    + intros z I. rewrite Hn. destruct (Z.eqb_spec z p) as [->|_]; [exfalso; apply (NC p Ip); now right|reflexivity].
    + intros z I. rewrite Hp. destruct (Z.eqb_spec z y) as [->|_]; [|reflexivity]. exfalso.
      apply in_app_or in I as [I|[<-|[]]]; [contradiction|]. apply (NC hd); [now left|right; now left].
  - rewrite O2, O1; auto.
  - intros b N. rewrite O2, O1; [reflexivity| |].
    + intros ->. apply N. destruct Iq as [<-|I]; [now left|]. right. apply in_or_app. now right.
    + intros ->. apply N. destruct Ip as [<-|I]; [now left|]. right. apply in_or_app. now left.
Qed.

(** ** Walking *)
Lemma each_from_spec h hd : forall l a n, linked h a l hd -> ~ In hd l -> (length l < n)%nat ->
  forall f, nxt h a = Some f -> each_from n hd f (fun _ h => Ok h) h = Ok (l, h).
Proof.
  induction l as [|x r IH]; intros a n L N F f E; destruct n as [|n]; cbn in F; try lia; cbn in L; cbn [each_from].
  - destruct L as (A & _). rewrite A in E. injection E as <-. now rewrite Z.eqb_refl.
  - destruct L as (A & _ & L). rewrite A in E. injection E as <-. destruct (Z.eqb_spec x hd) as [->|_]; [exfalso; apply N; now left|].
    cbn [rbind]. pose proof (linked_nxt h x r hd L) as En. rewrite (next_ok _ _ _ En). cbn [rbind].
    rewrite (IH x n L ltac:(intro; apply N; now right) ltac:(lia) _ En). reflexivity.
Qed.
Lemma for_each_ring h hd l n : ring h hd l -> (length l < n)%nat -> for_each n hd (fun _ h => Ok h) h = Ok (l, h).
Proof.
  intros (ND & L) F. unfold for_each. pose proof (linked_nxt _ _ _ _ L) as En. rewrite (next_ok _ _ _ En). cbn [rbind].
  inversion ND; subst. now apply (each_from_spec h hd l hd).
Qed.
(** Backwards: from the right end *)
Lemma each_back_spec h hd : forall l b n, linked h hd l b -> ~ In hd l -> (length l < n)%nat ->
  forall f, prv h b = Some f -> each_back n hd f (fun _ h => Ok h) h = Ok (rev l, h).
Proof.
  induction l as [|x r IH] using rev_ind; intros b n L N F f E; destruct n as [|n]; try (cbn in F; lia); cbn [each_back].
  - destruct L as (_ & A). rewrite A in E. injection E as <-. now rewrite Z.eqb_refl.
  - rewrite app_length in F. cbn in F. apply linked_app in L as (L & _ & A). rewrite A in E. injection E as <-.
    destruct (Z.eqb_spec x hd) as [->|_]; [exfalso; apply N; apply in_or_app; right; now left|]. cbn [rbind].
    destruct (linked_prv h hd r x L) as (p & Ep & _). rewrite (prev_ok _ _ _ Ep). cbn [rbind].
    rewrite (IH x n L ltac:(intro; apply N; apply in_or_app; now left) ltac:(lia) _ Ep). cbn [rbind fst snd].
    rewrite rev_app_distr. reflexivity.
Qed.
Lemma for_each_reverse_ring h hd l n : ring h hd l -> (length l < n)%nat -> for_each_reverse n hd (fun _ h => Ok h) h = Ok (rev l, h).
Proof.
  intros (ND & L) F. unfold for_each_reverse. destruct (linked_prv _ _ _ _ L) as (p & Ep & _). rewrite (prev_ok _ _ _ Ep). cbn [rbind].
  inversion ND; subst. now apply (each_back_spec h hd l hd).
Qed.

(** list_for_each_entry_safe: the body does what it likes as long as it leaves the list of
    the entries it has kept and those to come, the present one kept or not, and the
    memory of the entries to come. *)
Definition safe_body (I : heap -> Prop) (hd : Z) (keep : Z -> bool) (body : Z -> heap -> res heap) (l : list Z) : Prop :=
  forall k x r h, I h -> ring h hd (k ++ x :: r) -> (forall z, In z (k ++ x :: r) -> In z l) ->
    exists h', body x h = Ok h' /\ I h' /\ ring h' hd (k ++ (if keep x then [x] else []) ++ r).
Lemma each_safe_spec I hd keep body l0 : safe_body I hd keep body l0 ->
  forall l k n h, I h -> ring h hd (k ++ l) -> (forall z, In z (k ++ l) -> In z l0) -> (length l < n)%nat ->
  exists h', each_safe n hd (List.hd hd l) (match l with [] => List.hd hd (k ++ l) | _ :: r => List.hd hd r end) body h = Ok (l, h') /\
    I h' /\ ring h' hd (k ++ filter keep l).
Proof.
  intro B. induction l as [|x r IH]; intros k n h Ih R Sub F; destruct n as [|n]; cbn in F; try lia; cbn [each_safe List.hd].
  - rewrite Z.eqb_refl. exists h. now split.
  - destruct (Z.eqb_spec x hd) as [->|_].
    { exfalso. destruct R as (ND & _). inversion ND as [|? ? N _]; subst. apply N. apply in_or_app. right. now left. }
    destruct (B k x r h Ih R Sub) as (h1 & E1 & I1 & R1). rewrite E1. cbn [rbind].
    set (k1 := k ++ (if keep x then [x] else [])). rewrite app_assoc in R1. fold k1 in R1.
    assert (EN : nxt h1 (List.hd hd r) = Some (match r with [] => List.hd hd (k1 ++ r) | _ :: r' => List.hd hd r' end)).
    { destruct R1 as (_ & L1). destruct r as [|y r'].
      - cbn [List.hd]. apply (linked_nxt h1 hd (k1 ++ []) hd L1).
      - cbn [List.hd]. apply linked_app in L1 as (_ & L1). apply (linked_nxt h1 y r' hd L1). }
    rewrite (next_ok _ _ _ EN). cbn [rbind].
    destruct (IH k1 n h1 I1 R1) as (h2 & E2 & I2 & R2).
    + intros z J. apply Sub. unfold k1 in J. rewrite <- app_assoc in J. apply in_app_or in J as [J|J]; [apply in_or_app; now left|].
      apply in_or_app. right. destruct (keep x); cbn in J; [exact J|now right].
    + lia.
    + rewrite E2. cbn [rbind fst snd]. exists h2. split; [reflexivity|]. split; [exact I2|]. unfold k1 in R2. rewrite <- app_assoc in R2.
      cbn [filter]. destruct (keep x); exact R2.
Qed.
Lemma for_each_safe_ring I hd keep body l n h : safe_body I hd keep body l -> I h -> ring h hd l -> (length l < n)%nat ->
  exists h', for_each_safe n hd body h = Ok (l, h') /\ I h' /\ ring h' hd (filter keep l).
Proof.
  intros B Ih R F. unfold for_each_safe. destruct R as (ND & L). pose proof (linked_nxt _ _ _ _ L) as En. rewrite (next_ok _ _ _ En). cbn [rbind].
  assert (EN : nxt h (List.hd hd l) = Some (match l with [] => List.hd hd ([] ++ l) | _ :: r' => List.hd hd r' end)).
  { destruct l as [|y r']; [exact En|]. destruct L as (_ & _ & L). apply (linked_nxt h y r' hd L). }
  rewrite (next_ok _ _ _ EN). cbn [rbind].
  apply (each_safe_spec I hd keep body l B l [] n h Ih); [now split|easy|exact F].
Qed.

(** ** Several lists *)
Lemma nodes_app a b : nodes (a ++ b) = nodes a ++ nodes b.
Proof. unfold nodes. apply flat_map_app. Qed.
Lemma nodes_cons c b : nodes (c :: b) = fst c :: snd c ++ nodes b.
Proof. reflexivity. Qed.
Lemma in_nodes c ls x : In c ls -> In x (fst c :: snd c) -> In x (nodes ls).
Proof. intros I J. unfold nodes. apply in_flat_map. now exists c. Qed.
Lemma holds_split h A hd l B : holds h (A ++ (hd, l) :: B) ->
  ring h hd l /\ (forall x, In x (hd :: l) -> ~ In x (nodes A) /\ ~ In x (nodes B)).
Proof.
  intros (ND & R). rewrite nodes_app, nodes_cons in ND. cbn [fst snd] in ND. apply NoDup_app_iff in ND as (NA & NB & NC).
  change (hd :: l ++ nodes B) with ((hd :: l) ++ nodes B) in *. apply NoDup_app_iff in NB as (N1 & N2 & N3). split.
  - split; [exact N1|]. apply (R (hd, l)). apply in_or_app. right. now left.
  - intros x I. split; [|now apply N3]. intro J. apply (NC x J). apply in_or_app. now left.
Qed.
(** One list changes, the others and everything outside stay. *)
Lemma holds_change h h' A hd l l' B (X : Z -> Prop) :
  holds h (A ++ (hd, l) :: B) -> ring h' hd l' -> (forall x, X x -> ~ In x (nodes (A ++ (hd, l) :: B))) ->
  (forall x, In x l' -> In x l \/ X x) ->
  (forall b, ~ X b -> ~ In b (hd :: l) -> h' b = h b) ->
  holds h' (A ++ (hd, l') :: B).
Proof.
  intros H R' HX Sub Ho. destruct (holds_split _ _ _ _ _ H) as (R & Dis). destruct H as (ND & Ls).
  assert (OUT : forall x, In x (hd :: l') -> ~ In x (nodes A) /\ ~ In x (nodes B)).
  { intros x I. destruct I as [<-|I]; [apply Dis; now left|]. destruct (Sub x I) as [J|J]; [apply Dis; now right|].
    specialize (HX x J). rewrite nodes_app, nodes_cons in HX. split; intro K; apply HX; apply in_or_app; [now left|right].
    right. apply in_or_app. now right. }
  rewrite nodes_app, nodes_cons in ND. cbn [fst snd] in ND. apply NoDup_app_iff in ND as (NA & NB & NC).
  change (hd :: l ++ nodes B) with ((hd :: l) ++ nodes B) in *. pose proof NB as NB'. apply NoDup_app_iff in NB as (N1 & N2 & N3).
  split.
  - rewrite nodes_app, nodes_cons. cbn [fst snd]. change (hd :: l' ++ nodes B) with ((hd :: l') ++ nodes B).
    apply NoDup_app_iff. split; [exact NA|]. split.
    + apply NoDup_app_iff. split; [apply R'|]. split; [exact N2|]. intros x I. now apply OUT.
    + intros x I J. apply in_app_or in J as [J|J]; [exact (proj1 (OUT x J) I)|]. apply (NC x I). apply in_or_app. now right.
  - intros c I. assert (O : c = (hd, l') \/ In c (A ++ B)) by (apply in_app_or in I as [I|[<-|I]]; [right; apply in_or_app; now left|now left|right; apply in_or_app; now right]).
    destruct O as [->|O]; [apply R'|].
    assert (K : forall x, In x (fst c :: snd c) -> h' x = h x).
    { intros x J. apply Ho.
      - intro Q. apply (HX x Q). apply in_nodes with c; [|exact J]. apply in_app_or in O as [O|O]; apply in_or_app; [now left|right; now right].
      - intro Q. destruct (Dis x Q) as (D1 & D2). apply in_app_or in O as [O|O]; [apply D1|apply D2]; now apply in_nodes with c. }
    apply (linked_frame h h').
    + intros x J. unfold nxt. now rewrite K.
    + intros x J. unfold prv. rewrite K; [reflexivity|]. apply in_app_or in J as [J|[<-|[]]]; [now right|now left].
    + apply Ls. apply in_app_or in O as [O|O]; apply in_or_app; [now left|right; now right].
Qed.
Lemma heads_split ls hd : In hd (heads ls) -> exists A l B, ls = A ++ (hd, l) :: B.
Proof.
  intro I. unfold heads in I. apply in_map_iff in I as ([a l] & e & I). cbn in e. subst a.
  apply in_split in I as (A & B & ->). now exists A, l, B.
Qed.
Lemma entry_split (ls : lists) x : In x (flat_map snd ls) -> exists A hd l1 l2 B, ls = A ++ (hd, l1 ++ x :: l2) :: B.
Proof.
  intro I. apply in_flat_map in I as ([a l] & I & J). cbn in J. apply in_split in I as (A & B & ->).
  apply in_split in J as (l1 & l2 & ->). now exists A, a, l1, l2, B.
Qed.
Lemma to_list_other hd f ls : ~ In hd (heads ls) -> to_list hd f ls = ls.
Proof.
  intro N. unfold to_list. rewrite <- (map_id ls) at 2. apply map_ext_in. intros c I.
  destruct (Z.eqb_spec (fst c) hd) as [e|_]; [|reflexivity]. exfalso. apply N. rewrite <- e. unfold heads. now apply in_map.
Qed.
Lemma heads_nodes ls x : In x (heads ls) -> In x (nodes ls).
Proof. intro I. unfold heads in I. apply in_map_iff in I as (c & <- & I). apply in_nodes with c; [exact I|now left]. Qed.
Lemma entries_nodes (ls : lists) x : In x (flat_map snd ls) -> In x (nodes ls).
Proof. intro I. apply in_flat_map in I as (c & I & J). apply in_nodes with c; [exact I|now right]. Qed.
Lemma to_list_one h A hd l B f : holds h (A ++ (hd, l) :: B) -> to_list hd f (A ++ (hd, l) :: B) = A ++ (hd, f l) :: B.
Proof.
  intro H. destruct (holds_split _ _ _ _ _ H) as (_ & D). destruct (D hd (or_introl eq_refl)) as (D1 & D2).
  unfold to_list. rewrite map_app. cbn [map fst snd]. rewrite Z.eqb_refl. fold (to_list hd f A). fold (to_list hd f B).
  rewrite !to_list_other; [reflexivity| |]; intro I; [apply D2|apply D1]; now apply heads_nodes.
Qed.
Lemma insert_before_none x y l : ~ In y l -> insert_before x y l = l.
Proof.
  induction l as [|z r IH]; intro N; cbn; [reflexivity|]. destruct (Z.eqb_spec z y) as [->|_]; [exfalso; apply N; now left|].
  rewrite IH; [reflexivity|]. intro I. apply N. now right.
Qed.
Lemma insert_before_at x y l1 l2 : ~ In y l1 -> insert_before x y (l1 ++ y :: l2) = l1 ++ x :: y :: l2.
Proof.
  induction l1 as [|z r IH]; intro N; cbn; [now rewrite Z.eqb_refl|]. destruct (Z.eqb_spec z y) as [->|_]; [exfalso; apply N; now left|].
  rewrite IH; [reflexivity|]. intro I. apply N. now right.
Qed.
Lemma remove_mid x l1 l2 : ~ In x l1 -> ~ In x l2 -> remove Z.eq_dec x (l1 ++ x :: l2) = l1 ++ l2.
Proof.
  intros N1 N2. rewrite remove_app. cbn. destruct (Z.eq_dec x x); [|contradiction].
  now rewrite (notin_remove _ _ _ N1), (notin_remove _ _ _ N2).
Qed.
Lemma map_others (g : list Z -> list Z) ls y : ~ In y (nodes ls) -> (forall l, ~ In y l -> g l = l) ->
  map (fun c => (fst c, g (snd c))) ls = ls.
Proof.
  intros N G. rewrite <- (map_id ls) at 2. apply map_ext_in. intros [a l] I. cbn. rewrite G; [reflexivity|].
  intro J. apply N. apply in_nodes with (a, l); [exact I|now right].
Qed.

Lemma lexec_step o h ls : holds h ls -> lmay o h ls ->
  exists h', lexec o h = Ok h' /\ holds h' (lstep o ls) /\ (forall a, ~ ltouched o ls a -> h' a = h a).
Proof.
  intros H M. destruct o as [a|x a|x a|x y|x]; cbn [lmay lexec lstep] in *.
  - (* Init *) destruct M as (Aa & Na). unfold list_init.
    destruct (set_next_spec a a h Aa) as (h1 & E1 & N1 & P1 & O1). rewrite E1. cbn [rbind].
    destruct (set_prev_spec a a h1) as (h2 & E2 & P2 & N2 & O2); [rewrite alive_prv, P1, <- alive_prv; exact Aa|].
    exists h2. split; [exact E2|]. split.
    + destruct H as (ND & Ls). split.
      * rewrite nodes_app. cbn. apply NoDup_app_iff. split; [exact ND|]. split; [repeat constructor; easy|]. intros x I [<-|[]]. contradiction.
      * intros c I. apply in_app_or in I as [I|[<-|[]]].
        -- assert (K : forall x, In x (fst c :: snd c) -> h2 x = h x).
           { intros x J. assert (x <> a) by (intros ->; apply Na; now apply in_nodes with c). rewrite O2, O1; auto. }
           apply (linked_frame h h2); [| |now apply Ls].
           ++ intros x J. unfold nxt. now rewrite K.
           ++ intros x J. unfold prv. rewrite K; [reflexivity|]. apply in_app_or in J as [J|[<-|[]]]; [now right|now left].
        -- cbn. rewrite N2, N1, P2, Z.eqb_refl. now split.
    + intros b T. assert (b <> a) by (intros ->; apply T; now right). rewrite O2, O1; auto.
  - (* Add *) destruct M as (Ax & Nx & Ia). destruct (heads_split _ _ Ia) as (A & l & B & ->).
    rewrite (to_list_one h) by exact H. destruct (holds_split _ _ _ _ _ H) as (R & _).
    assert (Nl : ~ In x (a :: l)) by (intro I; apply Nx; apply in_nodes with (a, l); [apply in_or_app; right; now left|exact I]).
    destruct (list_add_ring h a l [] a x) as (h' & E & R' & O); auto; try (now rewrite app_nil_r).
    rewrite app_nil_r in O. exists h'. split; [exact E|]. split.
    + apply (holds_change h h' A a l (l ++ [x]) B (fun b => b = x)); auto.
      * intros b ->. exact Nx.
      * intros b I. apply in_app_or in I as [I|[<-|[]]]; [now left|now right].
    + intros b T. apply O; [intros ->; apply T; now right|]. intro I. apply T. left. apply in_nodes with (a, l); [apply in_or_app; right; now left|exact I].
  - (* AddHead *) destruct M as (Ax & Nx & Ia). destruct (heads_split _ _ Ia) as (A & l & B & ->).
    rewrite (to_list_one h) by exact H. destruct (holds_split _ _ _ _ _ H) as (R & _).
    assert (Nl : ~ In x (a :: l)) by (intro I; apply Nx; apply in_nodes with (a, l); [apply in_or_app; right; now left|exact I]).
    destruct (list_add_head_ring h a l x) as (h' & E & R' & O); auto. exists h'. split; [exact E|]. split.
    + apply (holds_change h h' A a l (x :: l) B (fun b => b = x)); auto.
      * intros b ->. exact Nx.
      * intros b [<-|I]; [now right|now left].
    + intros b T. apply O; [intros ->; apply T; now right|]. intro I. apply T. left. apply in_nodes with (a, l); [apply in_or_app; right; now left|exact I].
  - (* Before *) destruct M as (Ax & Nx & Iy). destruct (entry_split _ _ Iy) as (A & a & l1 & l2 & B & ->).
    destruct (holds_split _ _ _ _ _ H) as (R & D).
    assert (Ny : ~ In y l1).
    { destruct R as (ND & _). change (a :: l1 ++ y :: l2) with ((a :: l1) ++ y :: l2) in ND. apply NoDup_app_iff in ND as (_ & _ & C).
      intro I. apply (C y); [now right|now left]. }
    destruct (D y) as (D1 & D2); [right; apply in_or_app; right; now left|].
    assert (Nl : ~ In x (a :: l1 ++ y :: l2)) by (intro I; apply Nx; apply in_nodes with (a, l1 ++ y :: l2); [apply in_or_app; right; now left|exact I]).
    destruct (list_add_ring h a l1 (y :: l2) y x) as (h' & E & R' & O); eauto. exists h'. split; [exact E|].
    rewrite map_app. cbn [map fst snd]. rewrite (insert_before_at _ _ _ _ Ny).
    rewrite (map_others (insert_before x y) A y D1) by (intros; now apply insert_before_none).
    rewrite (map_others (insert_before x y) B y D2) by (intros; now apply insert_before_none). split.
    + apply (holds_change h h' A a (l1 ++ y :: l2) (l1 ++ x :: y :: l2) B (fun b => b = x)); auto.
      * intros b ->. exact Nx.
      * intros b I. apply in_app_or in I as [I|[<-|I]]; [left; apply in_or_app; now left|now right|left; apply in_or_app; now right].
    + intros b T. apply O; [intros ->; apply T; now right|]. intro I. apply T. left. apply in_nodes with (a, l1 ++ y :: l2); [apply in_or_app; right; now left|exact I].
  - (* Del *) destruct (entry_split _ _ M) as (A & a & l1 & l2 & B & ->). destruct (holds_split _ _ _ _ _ H) as (R & D).
    destruct (D x) as (D1 & D2); [right; apply in_or_app; right; now left|].
    assert (Nx : ~ In x l1 /\ ~ In x l2).
    { destruct R as (ND & _). change (a :: l1 ++ x :: l2) with ((a :: l1) ++ x :: l2) in ND. apply NoDup_app_iff in ND as (_ & N & C). split.
      - intro I. apply (C x); [now right|now left].
      - now inversion N. }
    destruct (list_del_ring h a l1 x l2 R) as (h' & E & R' & Ex & O). exists h'. split; [exact E|].
    rewrite map_app. cbn [map fst snd]. rewrite (remove_mid _ _ _ (proj1 Nx) (proj2 Nx)).
    rewrite (map_others (remove Z.eq_dec x) A x D1) by (intros; now apply notin_remove).
    rewrite (map_others (remove Z.eq_dec x) B x D2) by (intros; now apply notin_remove). split.
    + apply (holds_change h h' A a (l1 ++ x :: l2) (l1 ++ l2) B (fun _ => False)); auto.
      * intros b I. left. apply in_app_or in I as [I|I]; apply in_or_app; [now left|right; now right].
      * intros b _ N. apply O. intro I. apply N. destruct I as [<-|I]; [now left|]. right. apply in_app_or in I as [I|I]; apply in_or_app; [now left|right; now right].
    + intros b T. apply O. intro I. apply T. left. apply in_nodes with (a, l1 ++ x :: l2); [apply in_or_app; right; now left|].
      destruct I as [<-|I]; [now left|]. right. apply in_app_or in I as [I|I]; apply in_or_app; [now left|right; now right].
Qed.

(** Nothing is allocated or freed by these operations. *)
Definition same_alive (h h' : heap) : Prop := forall a, h' a = None <-> h a = None.
Lemma same_alive_refl h : same_alive h h.
Proof. intro a. tauto. Qed.
Lemma same_alive_trans h1 h2 h3 : same_alive h1 h2 -> same_alive h2 h3 -> same_alive h1 h3.
Proof. intros A B a. rewrite (B a), (A a). tauto. Qed.
Lemma set_next_alive a v h h' : set_next a v h = Ok h' -> same_alive h h'.
Proof.
  unfold set_next. destruct (h a) eqn:E; [|discriminate]. intros e. injection e as <-. intro b. unfold upd.
  destruct (Z.eqb_spec b a) as [->|_]; [rewrite E; split; discriminate|tauto].
Qed.
Lemma set_prev_alive a v h h' : set_prev a v h = Ok h' -> same_alive h h'.
Proof.
  unfold set_prev. destruct (h a) eqn:E; [|discriminate]. intros e. injection e as <-. intro b. unfold upd.
  destruct (Z.eqb_spec b a) as [->|_]; [rewrite E; split; discriminate|tauto].
Qed.
Lemma rbind_ok {A B} (x : res A) (f : A -> res B) r : rbind x f = Ok r -> exists a, x = Ok a /\ f a = Ok r.
Proof. destruct x; cbn; try discriminate. intro. now exists a. Qed.
Ltac alive := repeat match goal with
  | H : rbind _ _ = Ok _ |- _ => apply rbind_ok in H as (? & ? & ?)
  | H : set_next _ _ ?h = Ok ?h' |- same_alive ?h0 ?h' => refine (same_alive_trans _ _ _ _ (set_next_alive _ _ _ _ H)); clear H
  | H : set_prev _ _ ?h = Ok ?h' |- same_alive ?h0 ?h' => refine (same_alive_trans _ _ _ _ (set_prev_alive _ _ _ _ H)); clear H
  | |- same_alive ?h ?h => apply same_alive_refl
  end.
Lemma lexec_alive o h h' : lexec o h = Ok h' -> same_alive h h'.
Proof. destruct o; cbn [lexec]; unfold list_init, list_add, list_add_head, list_add_between, list_del; intro H; alive. Qed.

(** A whole run *)
Fixpoint lrun_may (os : list lop) (h : heap) (ls : lists) : Prop :=
  match os with [] => True | o :: r => lmay o h ls /\ lrun_may r h (lstep o ls) end.
Definition lsteps (os : list lop) (ls : lists) : lists := fold_left (fun ls o => lstep o ls) os ls.
Lemma lmay_alive o h h' ls : same_alive h h' -> lmay o h ls -> lmay o h' ls.
Proof. intros A. destruct o; cbn; rewrite ?(A _); tauto. Qed.
Lemma lrun_may_alive os h h' ls : same_alive h h' -> lrun_may os h ls -> lrun_may os h' ls.
Proof.
  intro A. revert ls. induction os as [|o r IH]; intros ls; cbn; [easy|]. intros (M & R). split; [now apply (lmay_alive o h)|now apply IH].
Qed.
Lemma lrun_steps : forall os h ls, holds h ls -> lrun_may os h ls ->
  exists h', lrun os h = Ok h' /\ holds h' (lsteps os ls) /\ same_alive h h'.
Proof.
  induction os as [|o r IH]; intros h ls H M; cbn [lrun].
  - exists h. split; [reflexivity|]. split; [exact H|apply same_alive_refl].
  - destruct M as (Mo & Mr). destruct (lexec_step o h ls H Mo) as (h1 & E & H1 & _). pose proof (lexec_alive o h h1 E) as A.
    rewrite E. cbn [rbind]. destruct (IH h1 (lstep o ls) H1 (lrun_may_alive r h h1 _ A Mr)) as (h' & E' & H' & A').
    exists h'. split; [exact E'|]. split; [exact H'|]. now apply (same_alive_trans h h1).
Qed.

(** ** Freeing *)
Lemma mfree_spec a h : h a <> None -> exists h', mfree a h = Ok h' /\ h' a = None /\ (forall b, b <> a -> h' b = h b).
Proof.
  intro A. unfold mfree. destruct (h a); [|congruence]. eexists. split; [reflexivity|]. unfold upd. rewrite Z.eqb_refl. split; [reflexivity|].
  intros b N. destruct (Z.eqb_spec b a); [contradiction|reflexivity].
Qed.
Lemma ring_frame h h' hd l : (forall x, In x (hd :: l) -> h' x = h x) -> ring h hd l -> ring h' hd l.
Proof.
  intros K (ND & L). split; [exact ND|]. apply (linked_frame h h'); [| |exact L].
  - intros x I. unfold nxt. now rewrite K.
  - intros x I. unfold prv. rewrite K; [reflexivity|]. apply in_app_or in I as [I|[<-|[]]]; [now right|now left].
Qed.
Lemma free_list_ring h hd l n : ring h hd l -> (length l < n)%nat ->
  exists h', free_list n hd h = Ok h' /\ ring h' hd [] /\ (forall x, In x l -> h' x = None) /\ (forall b, ~ In b (hd :: l) -> h' b = h b).
Proof.
  intros R F.
  (* what is gone of l is free; what is not of the list is as it was *)
  set (J := fun g : heap => (forall x, In x l -> forall k, ring g hd k -> In x k \/ g x = None) /\ forall b, ~ In b (hd :: l) -> g b = h b).
  assert (UNI : forall g k k', ring g hd k -> ring g hd k' -> k = k').
  { intros g k k' R1 R2. pose proof (for_each_ring g hd k (S (length k + length k')) R1 ltac:(lia)) as E1.
    rewrite (for_each_ring g hd k' (S (length k + length k')) R2 ltac:(lia)) in E1. congruence. }
  assert (B : safe_body J hd (fun _ => false) del_free l).
  { intros k x r g (J1 & J2) Rg Sub. destruct (list_del_ring g hd k x r Rg) as (g1 & E1 & R1 & Ex & O1).
    assert (Nx : ~ In x (hd :: k ++ r)).
    { destruct Rg as (ND & _). change (hd :: k ++ x :: r) with ((hd :: k) ++ x :: r) in ND. apply NoDup_remove_2 in ND. exact ND. }
    unfold del_free. rewrite E1. cbn [rbind].
    assert (Ax : g1 x <> None).
    { rewrite Ex. apply (linked_alive g hd (k ++ x :: r) hd (proj2 Rg)). left. right. apply in_or_app. right. now left. }
    destruct (mfree_spec x g1 Ax) as (g2 & E2 & F2 & O2). exists g2. split; [exact E2|]. cbn [app].
    assert (R2 : ring g2 hd (k ++ r)) by (apply (ring_frame g1 g2); [|exact R1]; intros z I; apply O2; intros ->; contradiction).
    split; [|exact R2]. split.
    - intros z Iz k' Rk'. rewrite (UNI g2 k' (k ++ r) Rk' R2). destruct (Z.eq_dec z x) as [->|N]; [now right|].
      destruct (J1 z Iz (k ++ x :: r) Rg) as [I|Fz].
      + left. apply in_app_or in I as [I|[e|I]]; apply in_or_app; [now left|congruence|now right].
      + destruct (in_dec Z.eq_dec z (k ++ r)) as [I|NI]; [now left|]. right. rewrite O2 by exact N.
        rewrite O1; [exact Fz|]. intros [e|I]; [|contradiction].
        apply (linked_alive g hd _ hd (proj2 Rg) hd); [now right|]. congruence.
    - intros b Nb. rewrite O2; [|intros ->; apply Nb; right; apply Sub; apply in_or_app; right; now left].
      rewrite O1; [now apply J2|]. intros I. apply Nb. destruct I as [e|I]; [now left|]. right. apply Sub.
      apply in_app_or in I as [I|I]; apply in_or_app; [now left|right; now right]. }
  destruct (for_each_safe_ring J hd (fun _ => false) del_free l n h B) as (h' & E & (J1 & J2) & R').
  - split; [|easy]. intros x I k Rk. left. now rewrite (UNI h k l Rk R).
  - exact R.
  - exact F.
  - assert (FL : filter (fun _ : Z => false) l = []) by (clear; induction l; [reflexivity|assumption]).
    rewrite FL in R'. unfold free_list. rewrite E. cbn [rbind snd]. exists h'. split; [reflexivity|]. split; [exact R'|]. split; [|exact J2].
    intros x I. destruct (J1 x I [] R') as [[]|Fx]. exact Fx.
Qed.

Lemma ring_unique g hd k k' : ring g hd k -> ring g hd k' -> k = k'.
Proof.
  intros R1 R2. pose proof (for_each_ring g hd k (S (length k + length k')) R1 ltac:(lia)) as E1.
  rewrite (for_each_ring g hd k' (S (length k + length k')) R2 ltac:(lia)) in E1. congruence.
Qed.
Lemma ring_alive g hd k x : ring g hd k -> In x (hd :: k) -> g x <> None.
Proof. intros R I. apply (linked_alive g hd k hd (proj2 R)). now left. Qed.

(** All an object has *)
Definition own (vs ps : Z -> list Z) (o : Z) : list Z := o :: vmas_of o :: vs o ++ patches_of o :: ps o.
Lemma own_v vs ps o x : In x (vmas_of o :: vs o) -> In x (own vs ps o).
Proof. unfold own. cbn. intros [I|I]; [tauto|]. right. right. apply in_or_app. now left. Qed.
Lemma own_p vs ps o x : In x (patches_of o :: ps o) -> In x (own vs ps o).
Proof. unfold own. intros I. right. right. apply in_or_app. now right. Qed.

Section Objects.
Variables (hd : Z) (os : list Z) (vs ps : Z -> list Z) (h : heap) (n : nat).
Hypothesis ND : NoDup (hd :: flat_map (own vs ps) os).
Hypothesis Fv : forall o, In o os -> (length (vs o) < n /\ length (ps o) < n)%nat.

Let in_all o x : In o os -> In x (own vs ps o) -> In x (flat_map (own vs ps) os).
Proof. intros I J. apply in_flat_map. now exists o. Qed.
Let own_apart o o' x : In o os -> In o' os -> In x (own vs ps o) -> In x (own vs ps o') -> o = o'.
Proof.
  inversion ND as [|? ? _ N]; subst. clear ND Fv in_all. induction os as [|a r IH]; intros I I' J J'; [contradiction|].
  cbn [flat_map] in N. apply NoDup_app_iff in N as (N1 & N2 & N3). destruct I as [<-|I], I' as [<-|I'].
  - reflexivity.
  - exfalso. apply (N3 x J). apply in_flat_map. now exists o'.
  - exfalso. apply (N3 x J'). apply in_flat_map. now exists o.
  - now apply IH.
Qed.
Let own_hd o : In o os -> ~ In hd (own vs ps o).
Proof. intros I J. inversion ND as [|? ? N _]; subst. apply N. now apply (in_all o). Qed.
Let own_nodup o : In o os -> NoDup (own vs ps o).
Proof.
  inversion ND as [|? ? _ N]; subst. clear ND Fv in_all own_apart own_hd. induction os as [|a r IH]; intros I; [contradiction|].
  cbn [flat_map] in N. apply NoDup_app_iff in N as (N1 & N2 & N3). destruct I as [<-|I]; [exact N1|now apply IH].
Qed.

Let J (g : heap) : Prop :=
  (forall k, ring g hd k -> (forall z, In z k -> In z os) ->
     (forall o, In o k -> ring g (vmas_of o) (vs o) /\ ring g (patches_of o) (ps o)) /\
     (forall o, In o os -> ~ In o k -> forall x, In x (own vs ps o) -> g x = None)) /\
  (forall b, ~ In b (hd :: flat_map (own vs ps) os) -> g b = h b).

Lemma object_destroy_body : safe_body J hd (fun _ => false) (object_destroy n) os.
Proof.
  intros k o r g (J1 & J2) Rg Sub.
  assert (Io : In o os) by (apply Sub; apply in_or_app; right; now left).
  destruct (J1 _ Rg Sub) as (JR & JF). destruct (JR o) as (Rv & Rp); [apply in_or_app; right; now left|].
  pose proof (own_nodup o Io) as No. unfold own in No. inversion No as [|? ? No1 No2]; subst. inversion No2 as [|? ? No3 No4]; subst.
  apply NoDup_app_iff in No4 as (No5 & No6 & No7).
  destruct (list_del_ring g hd k o r Rg) as (g1 & E1 & R1 & X1 & O1).
  unfold object_destroy. rewrite E1. cbn [rbind].
  assert (Nk : ~ In o (hd :: k ++ r)).
  { destruct Rg as (N & _). change (hd :: k ++ o :: r) with ((hd :: k) ++ o :: r) in N. apply NoDup_remove_2 in N. exact N. }
  (* nothing of o but its entry is in the list of objects *)
  assert (NL : forall x, In x (own vs ps o) -> ~ In x (hd :: k ++ r)).
  { intros x I [<-|K]; [now apply (own_hd o Io)|].
    assert (Ix : In x os) by (apply Sub; apply in_app_or in K as [K|K]; apply in_or_app; [now left|right; now right]).
    assert (x = o) by (apply (own_apart x o x Ix Io); [now left|exact I]). subst x. apply Nk. now right. }
  assert (Rv1 : ring g1 (vmas_of o) (vs o)) by (apply (ring_frame g); [|exact Rv]; intros x I; apply O1; apply NL; now apply own_v).
  assert (Rp1 : ring g1 (patches_of o) (ps o)) by (apply (ring_frame g); [|exact Rp]; intros x I; apply O1; apply NL; now apply own_p).
  destruct (Fv o Io) as (F1 & F2).
  destruct (free_list_ring g1 (vmas_of o) (vs o) n Rv1 F1) as (g2 & E2 & R2 & X2 & O2). rewrite E2. cbn [rbind].
  assert (Rp2 : ring g2 (patches_of o) (ps o)).
  { apply (ring_frame g1); [|exact Rp1]. intros x I. apply O2. intros [e|K].
    - apply No3. rewrite e. apply in_or_app. now right.
    - now apply (No7 x K). }
  destruct (free_list_ring g2 (patches_of o) (ps o) n Rp2 F2) as (g3 & E3 & R3 & X3 & O3). rewrite E3. cbn [rbind].
  unfold free_object_block.
  assert (A3 : g3 o <> None).
  { rewrite O3, O2, X1.
    - apply (ring_alive g hd (k ++ o :: r)); [exact Rg|]. right. apply in_or_app. right. now left.
    - intro K. apply No1. destruct K as [e|K]; [now left|]. right. apply in_or_app. now left.
    - intro K. apply No1. right. apply in_or_app. now right. }
  destruct (mfree_spec o g3 A3) as (g4 & E4 & X4 & O4). rewrite E4. cbn [rbind].
  assert (D1 : vmas_of o <> o) by (intro e; apply No1; now left).
  assert (D2 : patches_of o <> o) by (intro e; apply No1; right; apply in_or_app; right; now left).
  assert (D3 : patches_of o <> vmas_of o) by (intro e; apply No3; apply in_or_app; right; now left).
  assert (A4 : g4 (vmas_of o) <> None).
  { rewrite O4 by exact D1. rewrite O3.
    - apply (ring_alive g2 _ _ _ R2). now left.
    - intro K. apply No3. apply in_or_app. now right. }
  destruct (mfree_spec _ g4 A4) as (g5 & E5 & X5 & O5). rewrite E5. cbn [rbind].
  assert (A5 : g5 (patches_of o) <> None).
  { rewrite O5, O4 by assumption. apply (ring_alive g3 _ _ _ R3). now left. }
  destruct (mfree_spec _ g5 A5) as (g6 & E6 & X6 & O6). exists g6. split; [exact E6|]. cbn [app].
  (* outside of what o owns and the list, nothing changed; what o owns is gone *)
  assert (OUT : forall b, ~ In b (own vs ps o) -> g6 b = g1 b).
  { intros b N. unfold own in N.
    assert (b <> o) by (intros ->; apply N; now left). assert (b <> vmas_of o) by (intros ->; apply N; right; now left).
    assert (b <> patches_of o) by (intros ->; apply N; right; right; apply in_or_app; right; now left).
    rewrite O6, O5, O4, O3, O2; auto; intro K; apply N.
    - right. destruct K as [e|K]; [now left|]. right. apply in_or_app. now left.
    - right. right. apply in_or_app. now right. }
  assert (ALL : forall b, In b (own vs ps o) -> g6 b = None).
  { intros b I. destruct (Z.eq_dec b (patches_of o)) as [->|N1]; [exact X6|]. rewrite O6 by exact N1.
    destruct (Z.eq_dec b (vmas_of o)) as [->|N2]; [exact X5|]. rewrite O5 by exact N2.
    destruct (Z.eq_dec b o) as [->|N3]; [exact X4|]. rewrite O4 by exact N3.
    unfold own in I. destruct I as [I|[I|I]]; try congruence. apply in_app_or in I as [I|[I|I]]; try congruence.
    - rewrite O3; [now apply X2|]. intros [e|K]; [congruence|]. apply (No7 b I). now right.
    - now apply X3. }
  assert (R6 : ring g6 hd (k ++ r)).
  { apply (ring_frame g1); [|exact R1]. intros x I. apply OUT. intro K. now apply (NL x K). }
  split; [|exact R6]. split.
  - intros k' Rk Sk. rewrite (ring_unique g6 hd k' (k ++ r) Rk R6). split.
    + intros o' I'. assert (Io' : In o' os) by (apply Sub; apply in_app_or in I' as [I'|I']; apply in_or_app; [now left|right; now right]).
      assert (Ne : o' <> o) by (intros ->; apply Nk; now right).
      destruct (JR o') as (Rv' & Rp'); [apply in_app_or in I' as [I'|I']; apply in_or_app; [now left|right; now right]|].
      assert (K : forall x, In x (own vs ps o') -> x <> o' -> g6 x = g x).
      { intros x I N. rewrite OUT; [|intro Q; apply Ne; now apply (own_apart o' o x)]. apply O1. intros [e|Q].
        - apply (own_hd o' Io'). now rewrite e.
        - assert (Ix : In x os) by (apply Sub; apply in_app_or in Q as [Q|Q]; apply in_or_app; [now left|right; now right]).
          apply N. apply (own_apart x o' x Ix Io'); [now left|exact I]. }
      pose proof (own_nodup o' Io') as No'. unfold own in No'. inversion No' as [|? ? Q1 Q2]; subst.
      split.
      * apply (ring_frame g); [|exact Rv']. intros x I. apply K; [now apply own_v|]. intros ->. apply Q1. destruct I as [e|I]; [now left|]. right. apply in_or_app. now left.
      * apply (ring_frame g); [|exact Rp']. intros x I. apply K; [now apply own_p|]. intros ->. apply Q1. right. apply in_or_app. now right.
    + intros o' Io' N' x Ix. destruct (Z.eq_dec o' o) as [->|Ne]; [now apply ALL|].
      rewrite OUT; [|intro Q; apply Ne; now apply (own_apart o' o x)].
      rewrite O1.
      * apply (JF o' Io'); [|exact Ix]. intro Q. apply N'. apply in_app_or in Q as [Q|[e|Q]]; apply in_or_app; [now left|congruence|now right].
      * intros [e|Q]; [apply (own_hd o' Io'); now rewrite e|].
        assert (Ix2 : In x os) by (apply Sub; apply in_app_or in Q as [Q|Q]; apply in_or_app; [now left|right; now right]).
        assert (x = o') by (apply (own_apart x o' x Ix2 Io'); [now left|exact Ix]). subst x. contradiction.
  - intros b Nb. rewrite OUT; [|intro Q; apply Nb; right; now apply (in_all o)]. rewrite O1; [now apply J2|].
    intros [e|Q]; apply Nb; [now left|]. right.
    assert (Ib : In b os) by (apply Sub; apply in_app_or in Q as [Q|Q]; apply in_or_app; [now left|right; now right]).
    apply (in_all b _ Ib). now left.
Qed.

Lemma destroy_objects_ring : ring h hd os ->
  (forall o, In o os -> ring h (vmas_of o) (vs o) /\ ring h (patches_of o) (ps o)) -> (length os < n)%nat ->
  exists h', destroy_objects n hd h = Ok h' /\ ring h' hd [] /\
    (forall x, In x (flat_map (own vs ps) os) -> h' x = None) /\
    (forall b, ~ In b (hd :: flat_map (own vs ps) os) -> h' b = h b).
Proof.
  intros R Rs F.
  destruct (for_each_safe_ring J hd (fun _ => false) (object_destroy n) os n h object_destroy_body) as (h' & E & (J1 & J2) & R').
  - split; [|easy]. intros k Rk Sk. rewrite (ring_unique h hd k os Rk R). split; [exact Rs|]. intros o I N. contradiction.
  - exact R.
  - exact F.
  - assert (FL : filter (fun _ : Z => false) os = []) by (clear; induction os; [reflexivity|assumption]).
    rewrite FL in R'. unfold destroy_objects. rewrite E. cbn [rbind snd]. exists h'. split; [reflexivity|]. split; [exact R'|]. split; [|exact J2].
    intros x I. apply in_flat_map in I as (o & Io & I). destruct (J1 [] R' ltac:(easy)) as (_ & JF). now apply (JF o Io).
Qed.
End Objects.

Lemma process_free_all holes coros pctxs objs lh lc lp os vs ps h n :
  NoDup ((holes :: lh) ++ (coros :: lc) ++ (pctxs :: lp) ++ objs :: flat_map (own vs ps) os) ->
  ring h holes lh -> ring h coros lc -> ring h pctxs lp -> ring h objs os ->
  (forall o, In o os -> ring h (vmas_of o) (vs o) /\ ring h (patches_of o) (ps o)) ->
  (length lh < n)%nat -> (length lc < n)%nat -> (length lp < n)%nat -> (length os < n)%nat ->
  (forall o, In o os -> (length (vs o) < n /\ length (ps o) < n)%nat) ->
  exists h', process_free n holes coros pctxs objs h = Ok h' /\
    ring h' holes [] /\ ring h' coros [] /\ ring h' pctxs [] /\ ring h' objs [] /\
    (forall x, In x (lh ++ lc ++ lp ++ flat_map (own vs ps) os) -> h' x = None) /\
    (forall b, ~ In b ((holes :: lh) ++ (coros :: lc) ++ (pctxs :: lp) ++ objs :: flat_map (own vs ps) os) -> h' b = h b).
Proof.
  intros ND R1 R2 R3 R4 Rs F1 F2 F3 F4 Fs.
  apply NoDup_app_iff in ND as (N1 & ND & D1). apply NoDup_app_iff in ND as (N2 & ND & D2). apply NoDup_app_iff in ND as (N3 & N4 & D3).
  unfold process_free.
  destruct (free_list_ring h holes lh n R1 F1) as (h1 & E1 & Q1 & X1 & O1). rewrite E1. cbn [rbind].
  assert (K1 : forall x, In x ((coros :: lc) ++ (pctxs :: lp) ++ objs :: flat_map (own vs ps) os) -> h1 x = h x) by (intros x I; apply O1; intro Q; now apply (D1 x Q)).
  assert (R2' : ring h1 coros lc) by (apply (ring_frame h); [|exact R2]; intros x I; apply K1; apply in_or_app; now left).
  assert (C : exists h2, (do e <- list_empty coros h1; do h2 <- (if e then Ok h1 else free_list n coros h1);
       do h3 <- free_list n pctxs h2; destroy_objects n objs h3) = (do h3 <- free_list n pctxs h2; destroy_objects n objs h3)
     /\ ring h2 coros [] /\ (forall x, In x lc -> h2 x = None) /\ (forall b, ~ In b (coros :: lc) -> h2 b = h1 b)).
  { unfold list_empty. rewrite (next_ok _ _ _ (linked_nxt _ _ _ _ (proj2 R2'))). cbn [rbind]. destruct lc as [|c r].
    - cbn [List.hd]. rewrite Z.eqb_refl. cbn [rbind]. exists h1. repeat split; try easy; apply R2'.
    - cbn [List.hd]. destruct (Z.eqb_spec c coros) as [->|_]; [inversion N2 as [|? ? Q _]; exfalso; apply Q; now left|].
      destruct (free_list_ring h1 coros (c :: r) n R2' F2) as (h2 & E2 & Q2 & X2 & O2). rewrite E2. cbn [rbind].
      exists h2. split; [reflexivity|]. split; [exact Q2|]. split; [exact X2|exact O2]. }
  destruct C as (h2 & E2 & Q2 & X2 & O2). rewrite E2. clear E2.
  assert (R3' : ring h2 pctxs lp).
  { apply (ring_frame h); [|exact R3]. intros x I. rewrite O2; [apply K1; apply in_or_app; right; apply in_or_app; now left|].
    intro Q. apply (D2 x Q). apply in_or_app. now left. }
  destruct (free_list_ring h2 pctxs lp n R3' F3) as (h3 & E3 & Q3 & X3 & O3). rewrite E3. cbn [rbind].
  assert (K3 : forall x, In x (objs :: flat_map (own vs ps) os) -> h3 x = h x).
  { intros x I. rewrite O3, O2.
    - apply K1. apply in_or_app. right. apply in_or_app. now right.
    - intro Q. apply (D2 x Q). apply in_or_app. now right.
    - intro Q. now apply (D3 x Q). }
  assert (IO : forall o, In o os -> forall x, In x (own vs ps o) -> In x (objs :: flat_map (own vs ps) os)) by (intros o I x J; right; apply in_flat_map; now exists o).
  destruct (destroy_objects_ring objs os vs ps h3 n N4 Fs) as (h4 & E4 & Q4 & X4 & O4).
  - apply (ring_frame h); [|exact R4]. intros x [<-|I]; apply K3; [now left|]. apply (IO x I). now left.
  - intros o I. destruct (Rs o I) as (A & B). split.
    + apply (ring_frame h); [|exact A]. intros x J. apply K3. apply (IO o I). now apply own_v.
    + apply (ring_frame h); [|exact B]. intros x J. apply K3. apply (IO o I). now apply own_p.
  - exact F4.
  - exists h4. split; [exact E4|].
    assert (G1 : forall x, In x (holes :: lh) -> h4 x = h1 x).
    { intros x I. rewrite O4, O3, O2; [reflexivity| | |]; intro Q; apply (D1 x I); apply in_or_app; [now left|right|right]; apply in_or_app; [now left|now right]. }
    assert (G2 : forall x, In x (coros :: lc) -> h4 x = h2 x).
    { intros x I. rewrite O4, O3; [reflexivity| |]; intro Q; apply (D2 x I); apply in_or_app; [now left|now right]. }
    assert (G3 : forall x, In x (pctxs :: lp) -> h4 x = h3 x) by (intros x I; apply O4; intro Q; now apply (D3 x I)).
    split; [apply (ring_frame h1); [intros x [<-|[]]; apply G1; now left|exact Q1]|].
    split; [apply (ring_frame h2); [intros x [<-|[]]; apply G2; now left|exact Q2]|].
    split; [apply (ring_frame h3); [intros x [<-|[]]; apply G3; now left|exact Q3]|].
    split; [exact Q4|]. split.
    + intros x I. apply in_app_or in I as [I|I]; [rewrite G1 by (now right); now apply X1|].
      apply in_app_or in I as [I|I]; [rewrite G2 by (now right); now apply X2|].
      apply in_app_or in I as [I|I]; [rewrite G3 by (now right); now apply X3|]. now apply X4.
    + intros b N. rewrite O4, O3, O2, O1; [reflexivity| | | |]; intro Q; apply N; apply in_or_app; [now left|right|right|right]; apply in_or_app; [now left|right|right]; apply in_or_app; [now left|now right].
Qed.
