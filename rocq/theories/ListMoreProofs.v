From Coq Require Import Lia.
From Verif Require Import Base TextModel ListModel ListSpec ListProofs ListMoreModel.
Open Scope list_scope.

(** The end of a way, or its beginning, is another. *)
Lemma linked_end h h' a l x q p : linked h a l x -> prv h x = Some p -> NoDup (a :: l) -> nxt h' p = Some q -> prv h' q = Some p ->
  (forall b, In b (a :: l) -> b <> p -> nxt h' b = nxt h b) -> (forall b, In b l -> prv h' b = prv h b) -> linked h' a l q.
Proof.
  intros L E ND Hn Hp. revert a L ND. induction l as [|z r IH]; intros a L ND Fn Fp; cbn in L |- *.
  - destruct L as (A & B). rewrite B in E. injection E as <-. auto.
  - destruct L as (A & B & L). inversion ND as [|? ? Na NDr]; subst.
    destruct (linked_last h z r x p L E) as (l0 & El).
    assert (Ip : In p (z :: r)) by (rewrite El; apply in_or_app; right; now left).
    rewrite Fn by (first [now left|intros ->; contradiction]). rewrite Fp by now left. split; [exact A|]. split; [exact B|].
    apply IH; auto; intros b I; [intros Nb; apply Fn; [now right|exact Nb]|apply Fp; now right].
Qed.
Lemma linked_begin h h' x a l b f : linked h x l b -> nxt h x = Some f -> NoDup (l ++ [b]) -> nxt h' a = Some f -> prv h' f = Some a ->
  (forall y, In y l -> nxt h' y = nxt h y) -> (forall y, In y (l ++ [b]) -> y <> f -> prv h' y = prv h y) -> linked h' a l b.
Proof.
  intros L E ND Hn Hp Fn Fp. destruct l as [|z r]; cbn in L |- *.
  - destruct L as (A & B). assert (f = b) as -> by congruence. auto.
  - destruct L as (A & B & L). assert (f = z) as -> by congruence. split; [exact Hn|]. split; [exact Hp|].
    apply (linked_frame h); [exact Fn| |exact L]. intros y I. apply Fp; [now right|]. inversion ND. intros ->. contradiction.
Qed.
Lemma tail_in (l : list Z) d : In (List.hd d l) (d :: l).
Proof. destruct l; [now left|right; now left]. Qed.

Lemma replace_heap x n f p h : nxt h x = Some f -> prv h x = Some p -> h n <> None -> h f <> None -> h p <> None -> n <> x -> f <> x -> p <> x -> f <> n -> p <> n ->
  exists h', list_replace x n h = Ok h' /\ (forall b, nxt h' b = if b =? p then Some n else if b =? n then Some f else nxt h b) /\
    (forall b, prv h' b = if b =? n then Some p else if b =? f then Some n else prv h b) /\ (forall b, b <> n -> b <> f -> b <> p -> h' b = h b).
Proof.
  intros En Ep An Af Ap N1 N2 N3 N4 N5. unfold list_replace. rewrite (next_ok _ _ _ En). cbn [rbind].
  destruct (set_next_spec n f h An) as (h1 & E1 & X1 & Y1 & O1). rewrite E1. cbn [rbind].
  rewrite (next_ok h1 n f) by (rewrite X1, Z.eqb_refl; reflexivity). cbn [rbind].
  destruct (set_prev_spec f n h1) as (h2 & E2 & Y2 & X2 & O2); [rewrite O1 by congruence; exact Af|]. rewrite E2. cbn [rbind].
  rewrite (prev_ok h2 x p) by (rewrite Y2, Y1, (proj2 (Z.eqb_neq x f)) by congruence; exact Ep). cbn [rbind].
  destruct (set_prev_spec n p h2) as (h3 & E3 & Y3 & X3 & O3); [rewrite alive_nxt, X2, X1, Z.eqb_refl; discriminate|]. rewrite E3. cbn [rbind].
  rewrite (prev_ok h3 n p) by (rewrite Y3, Z.eqb_refl; reflexivity). cbn [rbind].
  destruct (set_next_spec p n h3) as (h4 & E4 & X4 & Y4 & O4).
  { rewrite alive_nxt, X3, X2, X1. destruct (p =? n); [discriminate|]. rewrite <- alive_nxt. exact Ap. }
  exists h4. split; [exact E4|]. split; [intros b; rewrite X4, X3, X2, X1; reflexivity|]. split; [intros b; rewrite Y4, Y3, Y2, Y1; reflexivity|].
  intros b B1 B2 B3. rewrite O4, O3, O2, O1; auto.
Qed.
Lemma replace_ring h hd l1 x l2 n : ring h hd (l1 ++ x :: l2) -> h n <> None -> ~ In n (hd :: l1 ++ x :: l2) ->
  exists h', list_replace x n h = Ok h' /\ ring h' hd (l1 ++ n :: l2) /\ forall b, ~ In b (n :: hd :: l1 ++ l2) -> h' b = h b.
Proof.
  intros (ND & L) An Nn. apply linked_app in L as (L1 & L2).
  destruct (linked_prv h hd l1 x L1) as (p & Ep & Ip). pose proof (linked_nxt h x l2 hd L2) as En. set (q := List.hd hd l2) in *.
  assert (Iq : In q (hd :: l2)) by apply tail_in.
  assert (Aq : h q <> None) by (apply (linked_alive h x l2 hd L2); destruct Iq as [<-|I]; [now right|left; now right]).
  assert (App : h p <> None) by (apply (linked_alive h hd l1 x L1); now left).
  pose proof ND as ND0. change (hd :: l1 ++ x :: l2) with ((hd :: l1) ++ x :: l2) in ND. apply NoDup_app_iff in ND as (NA & NB & NC).
  inversion NB as [|? ? Nx NB2]; subst. inversion NA as [|? ? Nh NA2]; subst.
  assert (Hx : hd <> x) by (intros ->; apply (NC x); now left).
  assert (I1 : forall b, In b (hd :: l1) -> b <> n) by (intros b I ->; apply Nn; destruct I as [<-|I]; [now left|right; apply in_or_app; now left]).
  assert (I2 : forall b, In b l2 -> b <> n) by (intros b I ->; apply Nn; right; apply in_or_app; right; now right).
  assert (J1 : forall b, In b (hd :: l1) -> b <> x) by (intros b I ->; apply (NC x I); now left).
  assert (J2 : forall b, In b l2 -> b <> x) by (intros b I ->; contradiction).
  assert (Ih : In hd (hd :: l1)) by now left.
  destruct (replace_heap x n q p h) as (h' & E & X & Y & O); auto.
  - intros ->. apply Nn. right. apply in_or_app. right. now left.
  - destruct Iq as [<-|I]; auto.
  - destruct Iq as [<-|I]; auto.
  - exists h'. split; [exact E|]. split; [split|].
    + change (hd :: l1 ++ n :: l2) with ((hd :: l1) ++ n :: l2). apply NoDup_app_iff. split; [exact NA|]. split; [constructor; [intro I; exact (I2 n I eq_refl)|exact NB2]|].
      intros b I [<-|J]; [exact (I1 n I eq_refl)|]. apply (NC b I). now right.
    + assert (qn : q <> n) by (destruct Iq as [<-|I]; auto). apply linked_app. split.
      * apply (linked_end h h' hd l1 x n p); auto.
        -- rewrite X, Z.eqb_refl. reflexivity.
        -- rewrite Y, Z.eqb_refl. reflexivity.
        -- intros b I Nb. rewrite X, (proj2 (Z.eqb_neq b p)), (proj2 (Z.eqb_neq b n)) by auto. reflexivity.
        -- intros b I. rewrite Y, (proj2 (Z.eqb_neq b n)) by (apply I1; now right). rewrite (proj2 (Z.eqb_neq b q)); [reflexivity|].
           intros ->. destruct Iq as [<-|J]; [contradiction|]. apply (NC q); now right.
      * apply (linked_begin h h' x n l2 hd q); auto.
        -- apply NoDup_app_iff. split; [exact NB2|]. split; [repeat constructor; easy|]. intros b I [<-|[]]. apply (NC hd Ih). now right.
        -- rewrite X, Z.eqb_refl. rewrite (proj2 (Z.eqb_neq n p)) by (intros ->; exact (I1 p Ip eq_refl)). reflexivity.
        -- rewrite Y, Z.eqb_refl. rewrite (proj2 (Z.eqb_neq q n)) by exact qn. reflexivity.
        -- intros b I. rewrite X, (proj2 (Z.eqb_neq b n)) by auto. rewrite (proj2 (Z.eqb_neq b p)); [reflexivity|]. intros ->. apply (NC p Ip). now right.
        -- intros b I Nb. rewrite Y, (proj2 (Z.eqb_neq b q)) by exact Nb. rewrite (proj2 (Z.eqb_neq b n)); [reflexivity|]. apply in_app_or in I as [I|[<-|[]]]; auto.
    + intros b N. apply O.
      * intros ->. apply N. now left.
      * intros ->. apply N. right. destruct Iq as [<-|I]; [now left|right; apply in_or_app; now right].
      * intros ->. apply N. right. destruct Ip as [<-|I]; [now left|right; apply in_or_app; now left].
Qed.

Lemma replace_head_ring h hd l n : ring h hd l -> h n <> None -> ~ In n (hd :: l) ->
  exists h', list_replace hd n h = Ok h' /\ ring h' n l /\ forall b, ~ In b (n :: hd :: l) -> h' b = h b.
Proof.
  intros (ND & L) An Nn. assert (nh : n <> hd) by (intros ->; apply Nn; now left). destruct l as [|f r].
  - destruct L as (A & B). assert (Ah : h hd <> None) by (rewrite alive_nxt; congruence). unfold list_replace. rewrite (next_ok _ _ _ A). cbn [rbind].
    destruct (set_next_spec n hd h An) as (h1 & E1 & X1 & Y1 & O1). rewrite E1. cbn [rbind].
    rewrite (next_ok h1 n hd) by (rewrite X1, Z.eqb_refl; reflexivity). cbn [rbind].
    destruct (set_prev_spec hd n h1) as (h2 & E2 & Y2 & X2 & O2); [rewrite O1 by congruence; exact Ah|]. rewrite E2. cbn [rbind].
    rewrite (prev_ok h2 hd n) by (rewrite Y2, Z.eqb_refl; reflexivity). cbn [rbind].
    destruct (set_prev_spec n n h2) as (h3 & E3 & Y3 & X3 & O3); [rewrite alive_nxt, X2, X1, Z.eqb_refl; discriminate|]. rewrite E3. cbn [rbind].
    rewrite (prev_ok h3 n n) by (rewrite Y3, Z.eqb_refl; reflexivity). cbn [rbind].
    destruct (set_next_spec n n h3) as (h4 & E4 & X4 & Y4 & O4); [rewrite alive_nxt, X3, X2, X1, Z.eqb_refl; discriminate|].
    exists h4. split; [exact E4|]. split; [split; [repeat constructor; easy|]|].
    + split; [rewrite X4, Z.eqb_refl; reflexivity|rewrite Y4, Y3, Z.eqb_refl; reflexivity].
    + intros b N. assert (b <> n /\ b <> hd) as (B1 & B2) by (split; intros ->; apply N; [now left|right; now left]). rewrite O4, O3, O2, O1; auto.
  - destruct L as (A & B & L). destruct (linked_prv h f r hd L) as (p & Ep & Ip).
    inversion ND as [|? ? Nh NDr]; subst. inversion NDr as [|? ? Nf NDr2]; subst.
    assert (In0 : forall b, In b (f :: r) -> b <> n /\ b <> hd) by (intros b I; split; intros ->; [apply Nn; now right|contradiction]).
    destruct (In0 p Ip) as (pn & ph). destruct (In0 f (or_introl eq_refl)) as (fn & fh).
    destruct (replace_heap hd n f p h) as (h' & E & X & Y & O); auto.
    + rewrite alive_prv. congruence.
    + apply (linked_alive h f r hd L). now left.
    + exists h'. split; [exact E|]. split; [split|].
      * constructor; [intro I; exact (proj1 (In0 n I) eq_refl)|exact NDr].
      * cbn [linked]. split; [rewrite X, Z.eqb_refl, (proj2 (Z.eqb_neq n p)) by congruence; reflexivity|].
        split; [rewrite Y, Z.eqb_refl, (proj2 (Z.eqb_neq f n)) by congruence; reflexivity|].
        apply (linked_end h h' f r hd n p); auto.
        -- rewrite X, Z.eqb_refl. reflexivity.
        -- rewrite Y, Z.eqb_refl. reflexivity.
        -- intros b I Nb. rewrite X, (proj2 (Z.eqb_neq b p)), (proj2 (Z.eqb_neq b n)) by (first [assumption|apply In0, I]). reflexivity.
        -- intros b I. rewrite Y, (proj2 (Z.eqb_neq b n)) by (apply In0; now right). rewrite (proj2 (Z.eqb_neq b f)); [reflexivity|intros ->; contradiction].
      * intros b N. apply O; intros ->; apply N; [now left|right; right; now left|right; right; exact Ip].
Qed.

(** Joining: [f] .. [la] go between [p] and [q]. *)
Lemma splice_heap s f la p q h : nxt h s = Some f -> prv h s = Some la -> h f <> None -> h la <> None -> h p <> None -> h q <> None -> p <> la -> q <> f ->
  exists h', splice_between s p q h = Ok h' /\ (forall b, nxt h' b = if b =? la then Some q else if b =? p then Some f else nxt h b) /\
    (forall b, prv h' b = if b =? q then Some la else if b =? f then Some p else prv h b) /\ (forall b, b <> p -> b <> f -> b <> la -> b <> q -> h' b = h b).
Proof.
  intros En Ep Af Al Ap Aq N1 N2. unfold splice_between. rewrite (next_ok _ _ _ En), (prev_ok _ _ _ Ep). cbn [rbind].
  destruct (set_prev_spec f p h Af) as (h1 & E1 & Y1 & X1 & O1). rewrite E1. cbn [rbind].
  destruct (set_next_spec p f h1) as (h2 & E2 & X2 & Y2 & O2); [rewrite alive_nxt, X1, <- alive_nxt; exact Ap|]. rewrite E2. cbn [rbind].
  destruct (set_next_spec la q h2) as (h3 & E3 & X3 & Y3 & O3).
  { rewrite alive_nxt, X2, X1. destruct (la =? p); [discriminate|]. rewrite <- alive_nxt. exact Al. }
  rewrite E3. cbn [rbind]. destruct (set_prev_spec q la h3) as (h4 & E4 & Y4 & X4 & O4).
  { rewrite alive_nxt, X3, X2, X1. destruct (q =? la); [discriminate|]. destruct (q =? p); [discriminate|]. rewrite <- alive_nxt. exact Aq. }
  exists h4. split; [exact E4|]. split; [intros b; rewrite X4, X3, X2, X1; reflexivity|]. split; [intros b; rewrite Y4, Y3, Y2, Y1; reflexivity|].
  intros b B1 B2 B3 B4. rewrite O4, O3, O2, O1; auto.
Qed.
(** Between the entries of one list *)
Lemma splice_ring h s k hd l1 l2 p q : ring h s k -> k <> [] -> ring h hd (l1 ++ l2) -> (forall b, In b (s :: k) -> ~ In b (hd :: l1 ++ l2)) ->
  linked h hd l1 q -> prv h q = Some p -> In p (hd :: l1) -> q = List.hd hd l2 ->
  exists h', splice_between s p q h = Ok h' /\ ring h' hd (l1 ++ k ++ l2) /\ forall b, ~ In b (hd :: l1 ++ k ++ l2) -> h' b = h b.
Proof.
  intros (NDk & Lk) Nk (ND & L) Dj L1 Ep Ip Eq. destruct k as [|f r]; [congruence|]. destruct Lk as (A & B & Lk).
  destruct (linked_prv h f r s Lk) as (la & El & Il).
  inversion NDk as [|? ? Ns NDk1]; subst. inversion NDk1 as [|? ? Nf NDk2]; subst. set (q := List.hd hd l2) in *.
  pose proof ND as ND0. change (hd :: l1 ++ l2) with ((hd :: l1) ++ l2) in ND. apply NoDup_app_iff in ND as (NA & NB & NC). inversion NA as [|? ? Nh NA2]; subst.
  assert (Iq : In q (hd :: l2)) by apply tail_in.
  assert (D1 : forall b c, In b (f :: r) -> In c (hd :: l1) -> b <> c) by (intros b c I J ->; apply (Dj c (or_intror I)); destruct J as [<-|J]; [now left|right; apply in_or_app; now left]).
  assert (D2 : forall b c, In b (f :: r) -> In c (hd :: l2) -> b <> c) by (intros b c I J ->; apply (Dj c (or_intror I)); destruct J as [<-|J]; [now left|right; apply in_or_app; now right]).
  assert (If : In f (f :: r)) by now left.
  destruct (splice_heap s f la p q h) as (h' & E & X & Y & O); auto.
  - rewrite alive_prv. congruence.
  - apply (linked_alive h f r s Lk). now left.
  - apply (linked_alive h hd l1 q L1). now left.
  - rewrite alive_prv. congruence.
  - apply not_eq_sym. auto.
  - apply not_eq_sym. auto.
  - exists h'. split; [exact E|]. split; [split|].
    + change (hd :: l1 ++ (f :: r) ++ l2) with ((hd :: l1) ++ (f :: r) ++ l2). apply NoDup_app_iff. split; [exact NA|]. split.
      * apply NoDup_app_iff. split; [exact NDk1|]. split; [exact NB|]. intros b I J. apply (D2 b b I); [now right|reflexivity].
      * intros b I J. apply in_app_or in J as [J|J]; [exact (D1 b b J I eq_refl)|exact (NC b I J)].
    + assert (W1 : linked h' hd l1 f).
      { apply (linked_end h h' hd l1 q f p); auto.
        - rewrite X, Z.eqb_refl, (proj2 (Z.eqb_neq p la)) by (apply not_eq_sym; auto). reflexivity.
        - rewrite Y, Z.eqb_refl, (proj2 (Z.eqb_neq f q)) by auto. reflexivity.
        - intros b I Nb. rewrite X, (proj2 (Z.eqb_neq b la)) by (apply not_eq_sym; auto). rewrite (proj2 (Z.eqb_neq b p)) by exact Nb. reflexivity.
        - intros b I. rewrite Y, (proj2 (Z.eqb_neq b f)) by (apply not_eq_sym, D1; [exact If|now right]). rewrite (proj2 (Z.eqb_neq b q)); [reflexivity|].
          intros ->. destruct Iq as [e|J]; [rewrite <- e in I; contradiction|]. apply (NC q); [now right|exact J]. }
      assert (W2 : linked h' f r q).
      { apply (linked_end h h' f r s q la); auto.
        - rewrite X, Z.eqb_refl. reflexivity.
        - rewrite Y, Z.eqb_refl. reflexivity.
        - intros b I Nb. rewrite X, (proj2 (Z.eqb_neq b la)), (proj2 (Z.eqb_neq b p)) by auto. reflexivity.
        - intros b I. rewrite Y, (proj2 (Z.eqb_neq b q)) by (apply D2; [now right|exact Iq]). rewrite (proj2 (Z.eqb_neq b f)); [reflexivity|intros ->; contradiction]. }
      cbn [app]. apply linked_app. split; [exact W1|]. destruct l2 as [|y t]; [rewrite app_nil_r; exact W2|]. cbn in q. subst q. apply linked_app. split; [exact W2|].
      apply linked_app in L as (_ & L2). inversion NB as [|? ? Ny NBt]; subst. apply (linked_frame h h' y t hd); [| |exact L2].
      * intros b I. rewrite X, (proj2 (Z.eqb_neq b la)) by (apply not_eq_sym, D2; [exact Il|now right]). rewrite (proj2 (Z.eqb_neq b p)); [reflexivity|]. intros ->. exact (NC p Ip I).
      * intros b I. assert (J : In b (hd :: y :: t) /\ b <> y).
        { apply in_app_or in I as [I|[<-|[]]]; [split; [right; now right|intros ->; contradiction]|]. split; [now left|]. intros e. apply (NC hd); [now left|left; congruence]. }
        rewrite Y, (proj2 (Z.eqb_neq b y)) by apply J. rewrite (proj2 (Z.eqb_neq b f)); [reflexivity|]. apply not_eq_sym, D2; [exact If|apply J].
    + intros b N. apply O; intros ->; apply N.
      * destruct Ip as [<-|I]; [now left|right; apply in_or_app; now left].
      * right. apply in_or_app. right. now left.
      * right. apply in_or_app. right. apply in_or_app. now left.
      * destruct Iq as [<-|I]; [now left|]. right. apply in_or_app. right. apply in_or_app. now right.
Qed.
Lemma empty_ring h s k : ring h s k -> list_empty s h = Ok (match k with [] => true | _ => false end).
Proof.
  intros (ND & L). unfold list_empty. rewrite (next_ok _ _ _ (linked_nxt h s k s L)). cbn [rbind]. destruct k as [|f r]; cbn [List.hd]; [rewrite Z.eqb_refl; reflexivity|].
  inversion ND as [|? ? Ns _]; subst. rewrite (proj2 (Z.eqb_neq f s)); [reflexivity|]. intros ->. apply Ns. now left.
Qed.
Lemma list_splice_ring h s k hd l : ring h s k -> ring h hd l -> (forall b, In b (s :: k) -> ~ In b (hd :: l)) ->
  (exists h', list_splice s hd h = Ok h' /\ ring h' hd (k ++ l) /\ forall b, ~ In b (hd :: k ++ l) -> h' b = h b) /\
  (exists h', list_splice_tail s hd h = Ok h' /\ ring h' hd (l ++ k) /\ forall b, ~ In b (hd :: l ++ k) -> h' b = h b).
Proof.
  intros Rk Rl Dj. unfold list_splice, list_splice_tail. rewrite (empty_ring h s k Rk). cbn [rbind]. destruct k as [|f r] eqn:Ek.
  - rewrite app_nil_r. split; exists h; auto.
  - rewrite <- Ek in *. assert (Nk : k <> []) by (subst k; discriminate). pose proof Rl as (ND & L).
    rewrite (next_ok _ _ _ (linked_nxt h hd l hd L)). destruct (linked_prv h hd l hd L) as (p & Ep & Ip). rewrite (prev_ok _ _ _ Ep). cbn [rbind]. split.
    + apply (splice_ring h s k hd [] l hd (List.hd hd l)); auto; [| |now left].
      * destruct l; cbn in L |- *; tauto.
      * destruct l; cbn in L |- *; tauto.
    + destruct (splice_ring h s k hd l [] p hd) as (h' & E & R & O); rewrite ?app_nil_r in *; auto. exists h'. auto.
Qed.

(** Cutting *)
Lemma cut_ring h hd l1 x l2 n : ring h hd (l1 ++ x :: l2) -> h n <> None -> ~ In n (hd :: l1 ++ x :: l2) ->
  exists h', list_cut_position n hd x h = Ok h' /\ ring h' n (l1 ++ [x]) /\ ring h' hd l2 /\ forall b, ~ In b (n :: hd :: l1 ++ x :: l2) -> h' b = h b.
Proof.
  intros (ND & L) An Nn. pose proof L as L0. apply linked_app in L as (L1 & L2).
  pose proof (linked_nxt h hd l1 x L1) as Ef. pose proof (linked_nxt h x l2 hd L2) as En. set (q := List.hd hd l2) in *. set (f := List.hd x l1) in *.
  assert (Iq : In q (hd :: l2)) by apply tail_in. assert (If : In f (x :: l1)) by apply tail_in.
  assert (Aq : h q <> None) by (apply (linked_alive h x l2 hd L2); destruct Iq as [<-|I]; [now right|left; now right]).
  assert (Af : h f <> None) by (apply (linked_alive h hd l1 x L1); destruct If as [<-|I]; [now right|left; now right]).
  assert (Ax : h x <> None) by (apply (linked_alive h hd l1 x L1); now right).
  assert (Ah : h hd <> None) by (apply (linked_alive h hd l1 x L1); left; now left).
  pose proof ND as ND0. change (hd :: l1 ++ x :: l2) with ((hd :: l1) ++ x :: l2) in ND. apply NoDup_app_iff in ND as (NA & NB & NC).
  inversion NB as [|? ? Nx NB2]; subst. inversion NA as [|? ? Nh NA2]; subst.
  assert (W : forall b, In b (hd :: l1 ++ x :: l2) -> b <> n) by (intros b I ->; contradiction).
  assert (Ih : In hd (hd :: l1)) by now left. assert (Hx : hd <> x) by (intros ->; apply (NC x Ih); now left).
  assert (Vx : In x (hd :: l1 ++ x :: l2)) by (right; apply in_or_app; right; now left).
  assert (Vf : In f (hd :: l1 ++ x :: l2)) by (destruct If as [<-|I]; [exact Vx|right; apply in_or_app; now left]).
  assert (Vq : In q (hd :: l1 ++ x :: l2)) by (destruct Iq as [<-|I]; [now left|right; apply in_or_app; right; now right]).
  assert (fq : f <> q).
  { destruct If as [<-|I]; destruct Iq as [e|J]; try rewrite <- e; [congruence|intros e; rewrite <- e in J; contradiction|intros e1; rewrite e1 in I; contradiction|].
    intros e1. rewrite e1 in I. apply (NC q); now right. }
  unfold list_cut_position. rewrite (next_ok _ _ _ En), (next_ok _ _ _ Ef). cbn [rbind].
  destruct (set_next_spec n f h An) as (h1 & E1 & X1 & Y1 & O1). rewrite E1. cbn [rbind].
  rewrite (next_ok h1 n f) by (rewrite X1, Z.eqb_refl; reflexivity). cbn [rbind].
  destruct (set_prev_spec f n h1) as (h2 & E2 & Y2 & X2 & O2); [rewrite O1 by auto; exact Af|]. rewrite E2. cbn [rbind].
  destruct (set_prev_spec n x h2) as (h3 & E3 & Y3 & X3 & O3); [rewrite alive_nxt, X2, X1, Z.eqb_refl; discriminate|]. rewrite E3. cbn [rbind].
  destruct (set_next_spec x n h3) as (h4 & E4 & X4 & Y4 & O4).
  { rewrite alive_nxt, X3, X2, X1. destruct (x =? n); [discriminate|]. rewrite <- alive_nxt. exact Ax. }
  rewrite E4. cbn [rbind]. destruct (set_next_spec hd q h4) as (h5 & E5 & X5 & Y5 & O5).
  { rewrite alive_nxt, X4, X3, X2, X1. destruct (hd =? x); [discriminate|]. destruct (hd =? n); [discriminate|]. rewrite <- alive_nxt. exact Ah. }
  rewrite E5. cbn [rbind]. destruct (set_prev_spec q hd h5) as (h6 & E6 & Y6 & X6 & O6).
  { rewrite alive_nxt, X5, X4, X3, X2, X1. destruct (q =? hd); [discriminate|]. destruct (q =? x); [discriminate|]. destruct (q =? n); [discriminate|]. rewrite <- alive_nxt. exact Aq. }
  assert (X : forall b, nxt h6 b = if b =? hd then Some q else if b =? x then Some n else if b =? n then Some f else nxt h b) by (intros b; rewrite X6, X5, X4, X3, X2, X1; reflexivity).
  assert (Y : forall b, prv h6 b = if b =? q then Some hd else if b =? n then Some x else if b =? f then Some n else prv h b) by (intros b; rewrite Y6, Y5, Y4, Y3, Y2, Y1; reflexivity).
  assert (ne : forall a b : Z, a <> b -> (a =? b) = false) by (intros a b; apply Z.eqb_neq).
  assert (nh : n <> hd) by (apply not_eq_sym, W; now left). assert (nx : n <> x) by (apply not_eq_sym, W, Vx). assert (nq : n <> q) by (apply not_eq_sym, W, Vq).
  exists h6. split; [exact E6|]. split; [|split].
  - split.
    + constructor; [intro I; apply Nn; right; apply in_app_or in I as [I|[<-|[]]]; apply in_or_app; [now left|right; now left]|].
      apply NoDup_app_iff. split; [exact NA2|]. split; [repeat constructor; easy|]. intros b I [<-|[]]. apply (NC x); [now right|now left].
    + apply linked_app. split.
      * apply (linked_begin h h6 hd n l1 x f); auto.
        -- apply NoDup_app_iff. split; [exact NA2|]. split; [repeat constructor; easy|]. intros b I [<-|[]]. apply (NC x); [now right|now left].
        -- rewrite X, (ne n hd), (ne n x), Z.eqb_refl by auto. reflexivity.
        -- rewrite Y, (ne f q), (ne f n), Z.eqb_refl by auto. reflexivity.
        -- intros y I. rewrite X, (ne y hd), (ne y x), (ne y n); [reflexivity| | |].
           ++ apply W. right. apply in_or_app. now left.
           ++ intros ->. apply (NC x); [now right|now left].
           ++ intros ->. contradiction.
        -- intros y I Ny. rewrite Y, (ne y q), (ne y n), (ne y f) by (first [exact Ny|idtac; apply W; right; apply in_app_or in I as [I|[<-|[]]]; apply in_or_app; [now left|right; now left]|idtac;
             intros ->; apply in_app_or in I as [I|[e|[]]]; destruct Iq as [e'|J];
               [rewrite <- e' in I; contradiction|apply (NC q); now right|congruence|rewrite <- e in J; contradiction]]). reflexivity.
      * cbn [linked]. rewrite X, (ne x hd), Z.eqb_refl by auto. split; [reflexivity|]. rewrite Y, (ne n q), Z.eqb_refl by auto. reflexivity.
  - split.
    + constructor; [intro I; apply (NC hd Ih); now right|exact NB2].
    + apply (linked_begin h h6 x hd l2 hd q); auto.
      * apply NoDup_app_iff. split; [exact NB2|]. split; [repeat constructor; easy|]. intros b I [<-|[]]. apply (NC hd Ih). now right.
      * rewrite X, Z.eqb_refl. reflexivity.
      * rewrite Y, Z.eqb_refl. reflexivity.
      * intros y I. rewrite X, (ne y hd), (ne y x), (ne y n); [reflexivity| | |].
        -- apply W. right. apply in_or_app. right. now right.
        -- intros ->. contradiction.
        -- intros ->. apply (NC hd Ih). now right.
      * intros y I Ny. assert (Vy : y = hd \/ In y l2) by (apply in_app_or in I as [I|[<-|[]]]; auto). rewrite Y, (ne y q), (ne y n), (ne y f); [reflexivity| | |exact Ny].
        -- intros ->. destruct If as [e|J], Vy as [e'|K]; [congruence|rewrite <- e in K; contradiction|rewrite e' in J; contradiction|apply (NC f); now right].
        -- apply W. destruct Vy as [->|K]; [now left|right; apply in_or_app; right; now right].
  - intros b N. rewrite O6, O5, O4, O3, O2, O1; auto; intros ->; apply N; try (now left); right; try exact Vf; try exact Vx; try exact Vq; now left.
Qed.
