(** Proofs about the red-black tree. *)
From Coq Require Import ZArith List Bool Lia ZifyBool ZifyNat Sorting.Sorted.
From Verif Require Import Base BaseProofs RbModel RbSpec.
Import ListNotations.
Open Scope Z_scope.

Section P.
Variable A : Type.
Notation tree := (tree A).
Notation frame := (frame A).
Implicit Types (t node l r s o : tree) (z : list frame).

(** ** Order of the elements *)
Fixpoint before (z : list frame) : list A :=
  match z with
  | [] => []
  | (L, _, _, _) :: z' => before z'
  | (R, _, x, o) :: z' => before z' ++ elements o ++ [x]
  end.
Fixpoint after (z : list frame) : list A :=
  match z with
  | [] => []
  | (L, _, x, o) :: z' => x :: elements o ++ after z'
  | (R, _, _, _) :: z' => after z'
  end.

Lemma plug_elements : forall z t, elements (plug z t) = before z ++ elements t ++ after z.
Proof.
  induction z as [|[[[s c] x] o] z IH]; intros t; cbn [plug].
  - cbn. rewrite app_nil_r. reflexivity.
  - rewrite IH. destruct s; cbn; rewrite <- ?app_assoc; cbn; rewrite <- ?app_assoc; reflexivity.
Qed.

Lemma recolor_elements c (t : tree) : elements (recolor c t) = elements t.
Proof. destruct t; reflexivity. Qed.

Ltac flat := cbn [elements mk before after app]; repeat rewrite recolor_elements; cbn [elements];
  repeat (rewrite <- ?app_assoc; cbn [app]); reflexivity.

Lemma insert_color_elements n : forall z node t, (length z <= n)%nat ->
  insert_color node z = Some t -> elements t = before z ++ elements node ++ after z.
Proof.
  induction n as [|n IH]; intros z node t Hn H.
  - destruct z; [|cbn in Hn; lia]. cbn in H. injection H as <-. rewrite recolor_elements. cbn.
    rewrite app_nil_r. reflexivity.
  - destruct z as [|[[[sp cp] xp] op] z1]; cbn [insert_color] in H.
    + injection H as <-. rewrite recolor_elements. cbn. rewrite app_nil_r. reflexivity.
    + destruct cp; [|injection H as <-; apply (plug_elements ((sp, Black, xp, op) :: z1))].
      destruct z1 as [|[[[sg cg] xg] u] z2]; [discriminate|].
      destruct (is_red u).
      * apply IH in H; [|cbn in Hn; lia]. rewrite H. destruct sg, sp; flat.
      * destruct sg, sp; try (injection H as <-; rewrite plug_elements; flat);
          destruct node as [|cn nl xn nr]; try discriminate; injection H as <-; rewrite plug_elements; flat.
Qed.

Lemma erase_tail_elements sd node cp xp s (r : tree + tree) : erase_tail sd node cp xp s = Some r ->
  elements (match r with inl t => t | inr t => t end) = elements (mk sd cp xp node s).
Proof.
  unfold erase_tail. destruct s as [|cs sl xs sr]; [discriminate|].
  destruct (negb (is_red (match sd with L => sr | R => sl end))).
  - destruct (negb (is_red (match sd with L => sl | R => sr end))).
    + intros H. destruct cp; injection H as <-; destruct sd; flat.
    + destruct sd; [destruct sl as [|cn nl xn nr]|destruct sr as [|cn nl xn nr]]; try discriminate;
        intros H; injection H as <-; flat.
  - intros H. injection H as <-. destruct sd; flat.
Qed.

Lemma erase_color_elements : forall z node t,
  erase_color node z = Some t -> elements t = before z ++ elements node ++ after z.
Proof.
  induction z as [|[[[sd cp] xp] s] z IH]; intros node t H; cbn [erase_color] in H.
  - injection H as <-. cbn. rewrite app_nil_r. reflexivity.
  - assert (G : match erase_tail sd node cp xp s with
                | Some (inl p) => Some (plug z p) | Some (inr p) => erase_color p z | None => None end = Some t ->
                elements t = before ((sd, cp, xp, s) :: z) ++ elements node ++ after ((sd, cp, xp, s) :: z)).
    { intros Q. destruct (erase_tail sd node cp xp s) as [[p|p]|] eqn:E; [| |discriminate].
      - injection Q as <-. rewrite plug_elements. apply erase_tail_elements in E. rewrite E.
        destruct sd; flat.
      - rewrite (IH _ _ Q). apply erase_tail_elements in E. rewrite E. destruct sd; flat. }
    destruct s as [|[] sl xs sr]; [exact (G H)| |exact (G H)].
    clear G.
    destruct sd.
    + destruct sl as [|cn nl xn nr]; [discriminate|].
      destruct (erase_tail L node Red xp (recolor Black (Node cn nl xn nr))) as [[p|p]|] eqn:E; try discriminate.
      injection H as <-. cbn [plug]. rewrite plug_elements. apply erase_tail_elements in E.
      cbn [mk elements] in *. rewrite E. flat.
    + destruct sr as [|cn nl xn nr]; [discriminate|].
      destruct (erase_tail R node Red xp (recolor Black (Node cn nl xn nr))) as [[p|p]|] eqn:E; try discriminate.
      injection H as <-. cbn [plug]. rewrite plug_elements. apply erase_tail_elements in E.
      cbn [mk elements] in *. rewrite E. flat.
Qed.

Lemma leftmost_elements : forall l c x r z cs xs ch zi, leftmost c l x r z = (cs, xs, ch, zi) ->
  before z = [] ->
  before zi = [] /\ elements (Node c l x r) ++ after z = xs :: elements ch ++ after zi.
Proof.
  induction l as [|cl ll IHl xl rl _]; intros c x r z cs xs ch zi H Hz; cbn [leftmost] in H.
  - injection H as <- <- <- <-. split; [exact Hz|]. flat.
  - apply IHl in H; [|exact Hz]. destruct H as [H1 H2]. split; [exact H1|]. rewrite <- H2. flat.
Qed.

Lemma before_app z1 z2 : before (z1 ++ z2) = before z2 ++ before z1.
Proof.
  induction z1 as [|[[[s c] x] o] z IH]; cbn; [rewrite app_nil_r; reflexivity|].
  destruct s; auto. rewrite IH, <- !app_assoc. reflexivity.
Qed.
Lemma after_app z1 z2 : after (z1 ++ z2) = after z1 ++ after z2.
Proof.
  induction z1 as [|[[[s c] x] o] z IH]; cbn; auto.
  destruct s; cbn; auto. rewrite IH, <- app_assoc. reflexivity.
Qed.

Lemma erase_node_elements c l x r z t : erase_node c l x r z = Some t ->
  elements t = before z ++ elements l ++ elements r ++ after z.
Proof.
  unfold erase_node. destruct l as [|cl ll xl rl], r as [|cr lr xr rr].
  - destruct c; intros H.
    + injection H as <-. rewrite plug_elements. reflexivity.
    + apply erase_color_elements in H. exact H.
  - intros H. injection H as <-. rewrite plug_elements. flat.
  - intros H. injection H as <-. rewrite plug_elements. flat.
  - destruct (leftmost cr lr xr rr []) as [[[cs xs] ch] zi] eqn:E.
    apply leftmost_elements in E; [|reflexivity]. destruct E as [E1 E2]. cbn [after] in E2. rewrite app_nil_r in E2.
    intros H.
    assert (G : elements t = before (zi ++ (R, c, xs, Node cl ll xl rl) :: z) ++ elements ch
                ++ after (zi ++ (R, c, xs, Node cl ll xl rl) :: z)).
    { destruct ch as [|c2 l2 x2 r2].
      - destruct cs.
        + injection H as <-. rewrite plug_elements. reflexivity.
        + apply erase_color_elements in H. exact H.
      - injection H as <-. rewrite plug_elements. reflexivity. }
    rewrite G, before_app, after_app, E1. cbn [before after].
    rewrite app_nil_r, <- !app_assoc. cbn [app]. f_equal. f_equal.
    replace (elements (Node cr lr xr rr) ++ after z) with ((xs :: elements ch ++ after zi) ++ after z)
      by (rewrite <- E2; reflexivity).
    cbn. rewrite <- app_assoc. reflexivity.
Qed.

(** ** Balance *)
Inductive rb : color -> nat -> tree -> Prop :=
| rb_leaf : rb Black 0 Leaf
| rb_red l x r n : rb Black n l -> rb Black n r -> rb Red n (Node Red l x r)
| rb_black c1 c2 l x r n : rb c1 n l -> rb c2 n r -> rb Black (S n) (Node Black l x r).

(** A path whose hole wants black height [n]; the colour is that of the parent. *)
Inductive zok : color -> nat -> list frame -> Prop :=
| zok_nil n : zok Black n []
| zok_black (s : side) x o z n co cp : rb co n o -> zok cp (S n) z -> zok Black n ((s, Black, x, o) :: z)
| zok_red (s : side) x o f z n : rb Black n o -> zok Black n (f :: z) -> zok Red n ((s, Red, x, o) :: f :: z).

Lemma rb_recolor_black c n t : rb c n t -> t <> Leaf -> exists m, rb Black m (recolor Black t).
Proof. intros H Ht. destruct H; [congruence| |]; cbn; eexists; econstructor; eauto. Qed.
Lemma rb_black_recolor n t : rb Black n t -> recolor Black t = t.
Proof. intros H. inversion H; reflexivity. Qed.
Lemma rb_is_red c n t : rb c n t -> is_red t = match c with Red => true | Black => false end.
Proof. intros H. destruct H; reflexivity. Qed.
Lemma rb_not_red c n t : rb c n t -> is_red t = false -> rb Black n t.
Proof. intros H Q. rewrite (rb_is_red _ _ _ H) in Q. destruct c; [discriminate|exact H]. Qed.

(** A red subtree fits under a black parent. *)
Lemma plug_rb : forall z cp n c t, zok cp n z -> rb c n t -> (cp = Red -> c = Black) -> (z = [] -> c = Black) ->
  exists N, rb Black N (plug z t).
Proof.
  induction z as [|[[[s cf] x] o] z IH]; intros cp n c t Hz Ht H1 H2; cbn [plug].
  - rewrite H2 in Ht by reflexivity. eauto.
  - inversion Hz; subst.
    + eapply (IH _ (S n) Black); eauto. destruct s; cbn; econstructor; eauto.
    + rewrite H1 in Ht by reflexivity.
      eapply (IH Black n Red); eauto; try discriminate.
      destruct s; cbn; constructor; auto.
Qed.

Lemma insert_color_rb k : forall z cp n l x r, (length z <= k)%nat -> zok cp n z ->
  rb Black n l -> rb Black n r ->
  exists t N, insert_color (Node Red l x r) z = Some t /\ rb Black N t.
Proof.
  induction k as [|k IH]; intros z cp n l x r Hk Hz Hl Hr.
  - destruct z; [|cbn in Hk; lia]. cbn. do 2 eexists. split; [reflexivity|]. econstructor; eauto.
  - destruct z as [|[[[sp cf] xp] op] z1].
    + cbn. do 2 eexists. split; [reflexivity|]. econstructor; eauto.
    + assert (Hred : rb Red n (Node Red l x r)) by (constructor; auto).
      inversion Hz as [|s0 x0 o0 z0 n0 co cp0 Ho Hz1|s0 x0 o0 f z0 n0 Ho Hz1]; subst; cbn [insert_color].
      * destruct (plug_rb _ _ _ _ _ Hz Hred) as [N HN]; try discriminate. do 2 eexists. split; [reflexivity|exact HN].
      * inversion Hz1 as [|sg xg u z2 n1 cu cp1 Hu Hz2|]; subst.
        rewrite (rb_is_red _ _ _ Hu). destruct cu.
        -- inversion Hu; subst.
           assert (Hu' : rb Black (S n) (recolor Black (Node Red l0 x0 r0))) by (cbn; econstructor; eauto).
           assert (Hp' : rb Black (S n) (mk sp Black xp (Node Red l x r) op)) by (destruct sp; cbn; econstructor; eauto).
           assert (E : exists a b, mk sg Red xg (mk sp Black xp (Node Red l x r) op) (recolor Black (Node Red l0 x0 r0))
                        = Node Red a xg b /\ rb Black (S n) a /\ rb Black (S n) b).
           { destruct sg; cbn [mk]; do 2 eexists; split; eauto. }
           destruct E as (a & b & -> & Ha & Hb).
           eapply (IH z0); eauto. cbn in Hk. lia.
        -- assert (Ob : recolor Black op = op) by (eapply rb_black_recolor; eauto).
           assert (Lb : recolor Black l = l) by (eapply rb_black_recolor; eauto).
           assert (Rb : recolor Black r = r) by (eapply rb_black_recolor; eauto).
           rewrite ?Ob, ?Lb, ?Rb.
           assert (F : forall t, rb Black (S n) t -> exists N, rb Black N (plug z0 t)).
           { intros t Ht. eapply plug_rb; eauto. }
           destruct sg, sp;
             (match goal with |- exists t N, Some (plug z0 ?q) = _ /\ _ =>
                destruct (F q) as [N HN]; [|do 2 eexists; split; [reflexivity|exact HN]] end);
             repeat (econstructor; eauto).
Qed.

Lemma erase_tail_rb sd node cp xp s n cs : rb Black n node -> rb Black (S n) s -> cs = cp ->
  match erase_tail sd node cp xp s with
  | Some (inl t) => match cp with Red => exists c, rb c (S n) t | Black => rb Black (S (S n)) t end
  | Some (inr t) => cp = Black /\ rb Black (S n) t
  | None => False
  end.
Proof.
  intros Hn Hs _. unfold erase_tail. inversion Hs as [| |c1 c2 sl xs sr n0 H1 H2]; subst.
  assert (Hfar : exists cf, rb cf n (match sd with L => sr | R => sl end)) by (destruct sd; eauto).
  assert (Hnear : exists cf, rb cf n (match sd with L => sl | R => sr end)) by (destruct sd; eauto).
  destruct Hfar as [cf Hfar], Hnear as [cn Hnear].
  rewrite (rb_is_red _ _ _ Hfar), (rb_is_red _ _ _ Hnear).
  destruct cf; cbn [negb].
  - (* case 4 *)
    assert (Hf' : rb Black (S n) (recolor Black (match sd with L => sr | R => sl end))).
    { inversion Hfar; subst. cbn. econstructor; eauto. }
    assert (Hp : rb Black (S n) (mk sd Black xp node (match sd with L => sl | R => sr end))).
    { destruct sd; cbn; econstructor; eauto. }
    destruct cp; destruct sd; cbn [mk]; repeat (econstructor; eauto).
  - destruct cn; cbn [negb].
    + (* case 3 *)
      inversion Hnear as [|a y b m Ha Hb E1 E2 E3|]; subst.
      assert (Ea : recolor Black a = a) by (eapply rb_black_recolor; eauto).
      assert (Eb : recolor Black b = b) by (eapply rb_black_recolor; eauto).
      destruct sd; subst; rewrite ?Ea, ?Eb; cbn [mk recolor]; destruct cp; repeat (econstructor; eauto).
    + (* case 2 *)
      destruct cp; [eexists|split; auto]; destruct sd; cbn [mk] in *; econstructor; eauto; econstructor; eauto.
Qed.

Lemma erase_color_rb : forall z cp n node, zok cp (S n) z -> rb Black n node ->
  exists t N, erase_color node z = Some t /\ rb Black N t.
Proof.
  induction z as [|[[[sd cf] xp] s] z IH]; intros cp n node Hz Hn; cbn [erase_color].
  - eauto.
  - inversion Hz as [|s0 x0 o0 z0 n0 co cp0 Ho Hz1|s0 x0 o0 f z0 n0 Ho Hz1]; subst.
    + (* black parent *)
      destruct co.
      * (* red sibling *)
        inversion Ho as [|sl xs sr m Hsl Hsr E1 E2 E3|]; subst.
        assert (Hfar : rb Black (S n) (match sd with L => sr | R => sl end)) by (destruct sd; auto).
        assert (Hnear : rb Black (S n) (match sd with L => sl | R => sr end)) by (destruct sd; auto).
        assert (En : exists a y b, match sd with L => sl | R => sr end = Node Black a y b).
        { inversion Hnear; eauto. }
        destruct En as (a & y & b & En). cbv zeta. rewrite En in *. cbn [recolor].
        pose proof (erase_tail_rb sd node Red xp (Node Black a y b) n Red Hn Hnear eq_refl) as T.
        destruct (erase_tail sd node Red xp (Node Black a y b)) as [[p|p]|]; [|destruct T; discriminate|contradiction].
        destruct T as [cc T].
        assert (Z : zok Black (S n) ((sd, Black, xs, match sd with L => sr | R => sl end) :: z)).
        { econstructor; eauto. }
        destruct (plug_rb _ _ _ _ _ Z T) as [N HN]; try discriminate.
        do 2 eexists. split; [reflexivity|exact HN].
      * pose proof (erase_tail_rb sd node Black xp s n Black Hn Ho eq_refl) as T.
        destruct s as [|[] sl xs sr]; [inversion Ho|inversion Ho|]. remember (Node Black sl xs sr) as s.
        destruct (erase_tail sd node Black xp s) as [[p|p]|]; [| |contradiction].
        -- destruct (plug_rb _ _ _ _ _ Hz1 T) as [N HN]; auto. do 2 eexists. split; [reflexivity|exact HN].
        -- destruct T as [_ T]. eapply IH; eauto.
    + (* red parent, black sibling *)
      pose proof (erase_tail_rb sd node Red xp s n Red Hn Ho eq_refl) as T.
      destruct s as [|[] sl xs sr]; [inversion Ho|inversion Ho|]. remember (Node Black sl xs sr) as s.
      destruct (erase_tail sd node Red xp s) as [[p|p]|]; [|destruct T; discriminate|contradiction].
      destruct T as [cc T].
      destruct (plug_rb _ _ _ _ _ Hz1 T) as [N HN]; try discriminate.
      do 2 eexists. split; [reflexivity|exact HN].
Qed.

(** A path with a subtree that fits. *)
Definition fits (t : tree) (z : list frame) : Prop :=
  exists c n cp, rb c n t /\ zok cp n z /\ (cp = Red -> c = Black) /\ (z = [] -> c = Black).

Lemma fits_root N t : rb Black N t -> fits t [].
Proof. intros H. exists Black, N, Black. repeat split; auto. constructor. Qed.
Lemma fits_plug t z : fits t z -> exists N, rb Black N (plug z t).
Proof. intros (c & n & cp & H1 & H2 & H3 & H4). eapply plug_rb; eauto. Qed.
Lemma fits_left c l x r z : fits (Node c l x r) z -> fits l ((L, c, x, r) :: z).
Proof.
  intros (c' & n & cp & H1 & H2 & H3 & H4). inversion H1; subst.
  - destruct z as [|f z]; [specialize (H4 eq_refl); discriminate|].
    exists Black, n, Red. split; [auto|]. split; [|split; [auto|discriminate]].
    constructor; auto. destruct cp; [specialize (H3 eq_refl); discriminate|exact H2].
  - exists c1, n0, Black. split; [auto|]. split; [|split; discriminate]. econstructor; eauto.
Qed.
Lemma fits_right c l x r z : fits (Node c l x r) z -> fits r ((R, c, x, l) :: z).
Proof.
  intros (c' & n & cp & H1 & H2 & H3 & H4). inversion H1; subst.
  - destruct z as [|f z]; [specialize (H4 eq_refl); discriminate|].
    exists Black, n, Red. split; [auto|]. split; [|split; [auto|discriminate]].
    constructor; auto. destruct cp; [specialize (H3 eq_refl); discriminate|exact H2].
  - exists c2, n0, Black. split; [auto|]. split; [|split; discriminate]. econstructor; eauto.
Qed.

Lemma leftmost_fits : forall l c x r z y cs xs ch zi, fits (Node c l x r) (z ++ y) ->
  leftmost c l x r z = (cs, xs, ch, zi) ->
  exists x', fits (Node cs Leaf x' ch) (zi ++ y).
Proof.
  induction l as [|cl ll IHl xl rl _]; intros c x r z y cs xs ch zi H E; cbn [leftmost] in E.
  - injection E as <- <- <- <-. eauto.
  - apply (IHl cl xl rl ((L, c, x, r) :: z) y) in E; auto. apply (fits_left _ _ _ _ _ H).
Qed.

(** Removing a node with at most one child, and the same in place of the successor. *)
Lemma splice_rb c l x r z ch : fits (Node c l x r) z -> (l = Leaf /\ ch = r \/ r = Leaf /\ ch = l) ->
  exists t N, match ch with
              | Leaf => match c with Black => erase_color Leaf z | Red => Some (plug z Leaf) end
              | Node _ _ _ _ => Some (plug z (recolor Black ch))
              end = Some t /\ rb Black N t
              /\ (ch <> Leaf -> c = Black).
Proof.
  intros (c' & n & cp & H1 & H2 & H3 & H4) Hc.
  inversion H1 as [|l0 x0 r0 n0 Hl Hr|c1 c2 l0 x0 r0 n0 Hl Hr]; subst.
  - (* red node: children of the same height, one is a leaf *)
    assert (n = O /\ ch = Leaf) as [-> ->].
    { destruct Hc as [[-> ->]|[-> ->]]; [inversion Hl; subst; inversion Hr|inversion Hr; subst; inversion Hl]; auto. }
    destruct (plug_rb z cp O Black Leaf H2 rb_leaf) as [N HN]; auto.
    do 2 eexists. split; [reflexivity|]. split; [exact HN|congruence].
  - assert (n0 = O) as -> by (destruct Hc as [[-> _]|[-> _]]; [inversion Hl|inversion Hr]; auto).
    assert (Hch : exists cc, rb cc O ch) by (destruct Hc as [[_ ->]|[_ ->]]; eauto).
    destruct Hch as [cc Hch]. inversion Hch as [|l1 x1 r1 n1 Hl1 Hr1 E1 E2 E3|]; subst.
    + destruct (erase_color_rb z cp O Leaf H2 rb_leaf) as (t & N & E & HN).
      exists t, N. split; [exact E|]. split; [exact HN|]. congruence.
    + assert (Hb : rb Black 1 (Node Black l1 x1 r1)) by (econstructor; eauto).
      destruct (plug_rb z cp 1%nat Black _ H2 Hb) as [N HN]; auto.
      do 2 eexists. split; [reflexivity|]. split; [exact HN|auto].
Qed.

Lemma zok_swap zi cp n c x y o z : zok cp n (zi ++ (R, c, x, o) :: z) -> zok cp n (zi ++ (R, c, y, o) :: z).
Proof.
  revert cp n. induction zi as [|[[[s cf] xf] of] zi IH]; intros cp n H; cbn [app] in *.
  - inversion H; subst; econstructor; eauto.
  - inversion H as [|s0 x0 o0 z0 n0 co cp0 Ho Hz1 E1 E2 E3|s0 x0 o0 f z0 n0 Ho Hz1 E1 E2 E3]; subst.
    + econstructor; eauto.
    + destruct zi as [|f1 zi]; cbn [app] in *;
        match goal with Q : _ :: _ = _ :: _ |- _ => injection Q as -> -> end; constructor; auto.
Qed.

Lemma fits_swap t zi c x y o z : fits t (zi ++ (R, c, x, o) :: z) -> fits t (zi ++ (R, c, y, o) :: z).
Proof.
  intros (c' & n & cp & H1 & H2 & H3 & H4). exists c', n, cp.
  split; [auto|]. split; [eapply zok_swap; eauto|]. split; [auto|]. intros E. destruct zi; discriminate.
Qed.

Lemma erase_node_rb c l x r z : fits (Node c l x r) z ->
  exists t N, erase_node c l x r z = Some t /\ rb Black N t.
Proof.
  intros H. unfold erase_node. destruct l as [|cl ll xl rl].
  - destruct (splice_rb c Leaf x r z r H (or_introl (conj eq_refl eq_refl))) as (t & N & E & HN & Hb).
    destruct r as [|cr lr xr rr]; [eauto|]. rewrite Hb by discriminate. eauto.
  - destruct r as [|cr lr xr rr].
    + destruct (splice_rb c (Node cl ll xl rl) x Leaf z _ H (or_intror (conj eq_refl eq_refl))) as (t & N & E & HN & Hb).
      rewrite Hb by discriminate. eauto.
    + destruct (leftmost cr lr xr rr []) as [[[cs xs] ch] zi] eqn:E.
      apply fits_right in H.
      destruct (leftmost_fits _ _ _ _ [] _ _ _ _ _ H E) as [x' G].
      apply (fits_swap _ _ _ _ xs) in G.
      destruct (splice_rb _ _ _ _ _ ch G (or_introl (conj eq_refl eq_refl))) as (t & N & E' & HN & _).
      exists t, N. split; [|exact HN]. rewrite <- E'. destruct ch; reflexivity.
Qed.

(** ** Order *)
Section Order.
Variable K : Type.
Variable key : A -> K.
Variable kcmp : K -> K -> Z.
Variable dom : K -> Prop.
Hypothesis ord : orders kcmp dom.
Notation cmp := (cmp key kcmp).

Definition lt (a b : A) : Prop := kcmp (key b) (key a) < 0.
Definition good (t : tree) : Prop :=
  (exists N, rb Black N t) /\ StronglySorted lt (elements t) /\ Forall (fun a => dom (key a)) (elements t).

Lemma ss_app (R0 : A -> A -> Prop) (l1 l2 : list A) : StronglySorted R0 (l1 ++ l2) <->
  StronglySorted R0 l1 /\ StronglySorted R0 l2 /\ (forall a b, In a l1 -> In b l2 -> R0 a b).
Proof.
  induction l1 as [|h l1 IH]; cbn.
  - split; [intros H; repeat split; auto; [constructor|intros a b []]|intros (_ & H & _); exact H].
  - split.
    + intros H. inversion H as [|? ? Hs Hf]; subst. apply IH in Hs. destruct Hs as (S1 & S2 & S3).
      rewrite Forall_app in Hf. destruct Hf as [F1 F2].
      split; [constructor; auto|]. split; [auto|]. intros a b [<-|Ha] Hb; auto.
      rewrite Forall_forall in F2. auto.
    + intros (S1 & S2 & S3). inversion S1 as [|? ? Hs Hf]; subst. constructor.
      * apply IH. repeat split; auto.
      * apply Forall_app. split; auto. apply Forall_forall. intros b Hb. apply S3; auto.
Qed.

Lemma locate_spec k : dom k -> forall t z t' z',
  locate cmp t k z = (t', z') ->
  StronglySorted lt (elements t) -> Forall (fun a => dom (key a)) (elements t) ->
  (forall a, In a (before z) -> 0 < kcmp (key a) k) ->
  (forall a, In a (after z) -> kcmp (key a) k < 0) ->
  plug z' t' = plug z t
  /\ (forall a, In a (before z') -> 0 < kcmp (key a) k \/ exists c l r y, t' = Node c l y r)
  /\ (t' = Leaf -> (forall a, In a (before z') -> 0 < kcmp (key a) k) /\ (forall a, In a (after z') -> kcmp (key a) k < 0))
  /\ (forall c l y r, t' = Node c l y r -> key y = k)
  /\ (fits t z -> fits t' z')
  /\ search cmp t k = (match t' with Leaf => None | Node _ _ y _ => Some y end).
Proof.
  intros Hk. induction t as [|c l IHl x r IHr]; intros z t' z' H Hs Hd Hb Ha; cbn [locate search RbSpec.cmp elements] in *.
  - injection H as <- <-. split; [auto|]. split; [auto|]. split; [auto|]. split; [discriminate|]. auto.
  - apply ss_app in Hs. destruct Hs as (S1 & S2 & S3). inversion S2 as [|? ? S4 S5]; subst.
    rewrite Forall_app in Hd. destruct Hd as [D1 D2]. inversion D2 as [|? ? D3 D4]; subst.
    rewrite Forall_forall in S5.
    destruct (kcmp (key x) k <? 0) eqn:E1.
    + apply IHl in H; auto.
      * destruct H as (G1 & G2 & G3 & G4 & G5 & G6). split; [exact G1|]. split; [exact G2|].
        split; [exact G3|]. split; [exact G4|]. split; [|exact G6]. intros F. apply G5. eapply fits_left; eauto.
      * cbn. intros a [<-|Q]; [lia|]. apply in_app_or in Q. destruct Q as [Q|Q]; [|auto].
        (* a after x: kcmp (key a) (key x) < 0 *)
        rewrite Forall_forall in D4. specialize (S5 a Q). unfold lt in S5.
        eapply (o_trans _ _ _ ord); eauto. lia.
    + destruct (0 <? kcmp (key x) k) eqn:E2.
      * apply IHr in H; auto.
        -- destruct H as (G1 & G2 & G3 & G4 & G5 & G6). split; [exact G1|]. split; [exact G2|].
           split; [exact G3|]. split; [exact G4|]. split; [|exact G6]. intros F. apply G5. eapply fits_right; eauto.
        -- cbn. intros a Q. apply in_app_or in Q. destruct Q as [Q|Q]; [auto|].
           apply in_app_or in Q. destruct Q as [Q|[<-|[]]]; [|lia].
           rewrite Forall_forall in D1. specialize (S3 a x Q (or_introl eq_refl)). unfold lt in S3.
           apply (o_opp _ _ _ ord); auto. eapply (o_trans _ _ _ ord); [| | |apply (o_opp _ _ _ ord)|exact S3]; auto. lia.
      * injection H as <- <-. assert (E : key x = k) by (apply (o_eq _ _ _ ord); auto; lia).
        split; [auto|]. split; [eauto 6|]. split; [discriminate|]. split; [|auto].
        intros c0 l0 y r0 Q. injection Q as _ _ <- _. exact E.
Qed.

Lemma good_leaf : good Leaf.
Proof. split; [exists O; constructor|]. split; constructor. Qed.

(** Distinct keys in a sorted list. *)
Lemma sorted_key (l : list A) a b : StronglySorted lt l -> Forall (fun a => dom (key a)) l ->
  In a l -> In b l -> key a = key b -> a = b.
Proof.
  induction l as [|h l IH]; intros Hs Hd Ha Hb E; [destruct Ha|].
  inversion Hs as [|? ? S1 S2]; inversion Hd as [|? ? D1 D2]; subst. rewrite Forall_forall in S2, D2.
  assert (I : forall x, In x l -> key x = key h -> False).
  { intros x Hx Ex. specialize (S2 x Hx). unfold lt in S2. rewrite Ex in S2.
    assert (kcmp (key h) (key h) = 0) by (apply (o_eq _ _ _ ord); auto). lia. }
  destruct Ha as [<-|Ha], Hb as [<-|Hb]; auto.
  - destruct (I b Hb); auto.
  - destruct (I a Ha); auto.
  - apply IH; auto. apply Forall_forall. auto.
Qed.

Lemma search_good t k : good t -> dom k ->
  forall y, search cmp t k = Some y <-> In y (elements t) /\ key y = k.
Proof.
  intros (_ & Hs & Hd) Hk y.
  destruct (locate cmp t k []) as [t' z'] eqn:E.
  destruct (locate_spec k Hk _ _ _ _ E Hs Hd) as (G1 & G2 & G3 & G4 & G5 & G6); try (intros ? []).
  rewrite G6. cbn [plug] in G1.
  assert (El : elements t = before z' ++ elements t' ++ after z') by (rewrite <- G1; apply plug_elements).
  destruct t' as [|c l x r].
  - split; [discriminate|]. intros [Hy Ek]. destruct (G3 eq_refl) as [B1 B2].
    rewrite El in Hy. cbn [elements app] in Hy.
    assert (kcmp (key y) k = 0). { apply (o_eq _ _ _ ord); auto. subst k. exact Hk. }
    apply in_app_or in Hy. destruct Hy as [Hy|Hy]; [specialize (B1 _ Hy)|specialize (B2 _ Hy)]; lia.
  - pose proof (G4 _ _ _ _ eq_refl) as Ek.
    assert (Hx : In x (elements t)). { rewrite El. apply in_or_app. right. apply in_or_app. left. cbn. apply in_or_app. right. left. reflexivity. }
    split.
    + intros Q. injection Q as <-. auto.
    + intros [Hy Ey]. f_equal. eapply sorted_key; eauto. congruence.
Qed.

Lemma insert_good t x : good t -> dom (key x) ->
  match search cmp t (key x) with
  | Some y => insert cmp t x (key x) = Some (t, Some y)
  | None => exists t', insert cmp t x (key x) = Some (t', None) /\ good t'
              /\ exists p q, elements t = p ++ q /\ elements t' = p ++ x :: q
  end.
Proof.
  intros (Hrb & Hs & Hd) Hk. unfold insert.
  destruct (locate cmp t (key x) []) as [t' z'] eqn:E.
  destruct (locate_spec _ Hk _ _ _ _ E Hs Hd) as (G1 & G2 & G3 & G4 & G5 & G6); try (intros ? []).
  rewrite G6. destruct t' as [|c l y r]; [|reflexivity].
  cbn [plug] in G1.
  assert (El : elements t = before z' ++ after z') by (rewrite <- G1; apply (plug_elements z' Leaf)).
  destruct Hrb as [N HN]. destruct (G5 (fits_root _ _ HN)) as (c & n & cp & F1 & F2 & F3 & F4).
  inversion F1; subst c n.
  destruct (insert_color_rb (length z') z' cp O Leaf x Leaf (le_n _) F2 rb_leaf rb_leaf) as (t' & M & E' & HM).
  rewrite E'. exists t'. split; [reflexivity|].
  pose proof (insert_color_elements (length z') z' _ _ (le_n _) E') as El'. cbn [elements app] in El'.
  destruct (G3 eq_refl) as [B1 B2].
  split; [|exists (before z'), (after z'); auto].
  split; [eauto|]. rewrite El in Hs, Hd. rewrite El'.
  apply ss_app in Hs. destruct Hs as (S1 & S2 & S3). rewrite Forall_app in Hd. destruct Hd as [D1 D2].
  rewrite Forall_forall in D1, D2.
  split.
  - apply ss_app. split; [exact S1|]. split.
    + constructor; auto. apply Forall_forall. intros b Hb. unfold lt. auto.
    + intros a b Ha [<-|Hb]; [|auto]. unfold lt. apply (o_opp _ _ _ ord); auto.
  - apply Forall_app. split; [apply Forall_forall; auto|]. constructor; auto. apply Forall_forall; auto.
Qed.

Lemma erase_good t k : good t -> dom k ->
  match search cmp t k with
  | None => erase cmp t k = Some t
  | Some y => exists t', erase cmp t k = Some t' /\ good t'
                /\ exists p q, elements t = p ++ y :: q /\ elements t' = p ++ q
  end.
Proof.
  intros (Hrb & Hs & Hd) Hk. unfold erase.
  destruct (locate cmp t k []) as [t' z'] eqn:E.
  destruct (locate_spec _ Hk _ _ _ _ E Hs Hd) as (G1 & G2 & G3 & G4 & G5 & G6); try (intros ? []).
  rewrite G6. destruct t' as [|c l y r]; [reflexivity|]. cbn [plug] in G1.
  destruct Hrb as [N HN]. specialize (G5 (fits_root _ _ HN)).
  destruct (erase_node_rb _ _ _ _ _ G5) as (t' & M & E' & HM).
  rewrite E'. exists t'. split; [reflexivity|].
  pose proof (erase_node_elements _ _ _ _ _ _ E') as El'.
  assert (El : elements t = (before z' ++ elements l) ++ y :: elements r ++ after z').
  { rewrite <- G1, plug_elements. cbn. rewrite <- !app_assoc. reflexivity. }
  rewrite app_assoc in El'.
  split; [|eauto].
  split; [eauto|]. rewrite El in Hs, Hd. rewrite El'.
  apply ss_app in Hs. destruct Hs as (S1 & S2 & S3). rewrite Forall_app in Hd. destruct Hd as [D1 D2].
  inversion S2; inversion D2; subst.
  split.
  - apply ss_app. split; [exact S1|]. split; [auto|]. intros a b Ha Hb. apply S3; auto. right. exact Hb.
  - apply Forall_app. auto.
Qed.

Variable keqb : K -> K -> bool.
Hypothesis keqb_spec : forall a b, keqb a b = true <-> a = b.

Lemma run_ops : forall ops t (s : list A), good t -> Forall (fun o : op A K => dom (op_key key o)) ops ->
  (forall y, In y s <-> In y (elements t)) ->
  exists t', fold_left (tree_step key kcmp) ops (Some t) = Some t' /\ good t'
    /\ (forall y, In y (fold_left (set_step key keqb) ops s) <-> In y (elements t')).
Proof.
  induction ops as [|o ops IH]; intros t s Hg Hd Hs; cbn [fold_left].
  - eauto.
  - inversion Hd as [|? ? Hk Hd']; subst.
    assert (G : exists t', tree_step key kcmp (Some t) o = Some t' /\ good t'
              /\ (forall y, In y (set_step key keqb s o) <-> In y (elements t'))).
    { destruct o as [x|k]; cbn [op_key tree_step set_step] in *.
      - pose proof (insert_good t x Hg Hk) as I. pose proof (search_good t (key x) Hg Hk) as Q.
        destruct (search cmp t (key x)) as [y|].
        + rewrite I. exists t. split; [reflexivity|]. split; [exact Hg|].
          destruct (proj1 (Q y) eq_refl) as [Q1 Q2].
          assert (existsb (fun y0 => keqb (key y0) (key x)) s = true) as ->.
          { apply existsb_exists. exists y. split; [apply Hs; exact Q1|apply keqb_spec; exact Q2]. }
          exact Hs.
        + destruct I as (t' & I1 & I2 & p & q & I3 & I4). rewrite I1. exists t'. split; [reflexivity|].
          split; [exact I2|].
          assert (existsb (fun y0 => keqb (key y0) (key x)) s = false) as ->.
          { destruct (existsb _ s) eqn:Ex; [|reflexivity]. apply existsb_exists in Ex. destruct Ex as (y & Y1 & Y2).
            apply keqb_spec in Y2. apply Hs in Y1. destruct (Q y) as [_ Q']. discriminate Q'; auto. }
          intros y. rewrite I4. specialize (Hs y). rewrite I3 in Hs. cbn [In]. rewrite Hs, !in_app_iff. cbn [In]. tauto.
      - pose proof (erase_good t k Hg Hk) as I. pose proof (search_good t k Hg Hk) as Q.
        destruct (search cmp t k) as [x|].
        + destruct I as (t' & I1 & I2 & p & q & I3 & I4). rewrite I1. exists t'. split; [reflexivity|].
          split; [exact I2|]. destruct (proj1 (Q x) eq_refl) as [Q1 Q2].
          destruct Hg as (_ & Hso & Hdo).
          intros y. rewrite filter_In, Hs, negb_true_iff, I4, I3, !in_app_iff. cbn [In].
          split.
          * intros [[Y|[<-|Y]] N]; auto. apply keqb_spec in Q2. congruence.
          * intros Y. split; [tauto|]. destruct (keqb (key y) k) eqn:Ey; [|reflexivity].
            apply keqb_spec in Ey. exfalso.
            assert (y = x). { eapply sorted_key; eauto; [|congruence]. rewrite I3. apply in_or_app. cbn. tauto. }
            subst y. rewrite I3 in Hso. apply ss_app in Hso. destruct Hso as (S1 & S2 & S3).
            inversion S2 as [|? ? S4 S5]; subst. rewrite Forall_forall in S5, Hdo.
            assert (lt x x) by (destruct Y as [Y|Y]; [apply S3; cbn; auto|apply S5; auto]).
            unfold lt in H. assert (kcmp (key x) (key x) = 0) by (apply (o_eq _ _ _ ord); auto). lia.
        + rewrite I. exists t. split; [reflexivity|]. split; [exact Hg|].
          intros y. rewrite filter_In, Hs, negb_true_iff. split; [tauto|]. intros Y. split; [exact Y|].
          destruct (keqb (key y) k) eqn:Ey; [|reflexivity]. apply keqb_spec in Ey.
          destruct (Q y) as [_ Q']. discriminate Q'; auto. }
    destruct G as (t' & G1 & G2 & G3). rewrite G1. eapply IH; eauto.
Qed.
End Order.

(** ** Depth *)
Lemma rb_depth c n t : rb c n t ->
  0 <= depth t <= 2 * Z.of_nat n + (match c with Red => 1 | Black => 0 end)
  /\ 2 ^ Z.of_nat n <= 1 + zlen (elements t).
Proof.
  induction 1 as [|l x r n Hl IHl Hr IHr|c1 c2 l x r n Hl IHl Hr IHr].
  - cbn. lia.
  - cbn [depth elements]. unfold zlen in *. rewrite app_length. cbn [length]. lia.
  - cbn [depth elements]. unfold zlen in *. rewrite app_length. cbn [length].
    rewrite Nat2Z.inj_succ, Z.pow_succ_r by lia. destruct c1, c2; lia.
Qed.

Lemma depth_log t N : rb Black N t -> depth t <= 2 * Z.log2 (1 + zlen (elements t)).
Proof.
  intros H. apply rb_depth in H. destruct H as [[H0 H1] H2].
  apply Z.log2_le_mono in H2. rewrite Z.log2_pow2 in H2 by lia. lia.
Qed.

(** ** Walking *)
Lemma first_node_spec t : first_node t = hd_error (elements t).
Proof.
  induction t as [|c l IHl x r IHr]; [reflexivity|]. destruct l as [|c1 l1 x1 r1]; [reflexivity|].
  change (first_node (Node c (Node c1 l1 x1 r1) x r)) with (first_node (Node c1 l1 x1 r1)).
  rewrite IHl. change (elements (Node c (Node c1 l1 x1 r1) x r)) with (elements (Node c1 l1 x1 r1) ++ x :: elements r).
  remember (elements (Node c1 l1 x1 r1)) as e. destruct e; [|reflexivity].
  cbn in Heqe. destruct (elements l1); discriminate.
Qed.
Lemma last_node_spec t : last_node t = hd_error (rev (elements t)).
Proof.
  induction t as [|c l IHl x r IHr]; [reflexivity|]. destruct r as [|c1 l1 x1 r1].
  - cbn. rewrite rev_app_distr. reflexivity.
  - change (last_node (Node c l x (Node c1 l1 x1 r1))) with (last_node (Node c1 l1 x1 r1)).
    rewrite IHr. change (elements (Node c l x (Node c1 l1 x1 r1))) with (elements l ++ x :: elements (Node c1 l1 x1 r1)).
    rewrite rev_app_distr. cbn [rev]. remember (rev (elements (Node c1 l1 x1 r1))) as e. destruct e; [|reflexivity].
    apply (f_equal (@rev A)) in Heqe. rewrite rev_involutive in Heqe. cbn in Heqe. destruct (elements l1); discriminate.
Qed.

Lemma up_right_spec z : up_right z = hd_error (after z).
Proof. induction z as [|[[[s c] x] o] z IH]; [reflexivity|]. destruct s; cbn; auto. Qed.
Lemma up_left_spec z : up_left z = hd_error (rev (before z)).
Proof.
  induction z as [|[[[s c] x] o] z IH]; [reflexivity|]. destruct s; cbn; auto.
  rewrite app_assoc, rev_app_distr. reflexivity.
Qed.
Lemma hd_app (a b : list A) : a <> [] -> hd_error (a ++ b) = hd_error a.
Proof. destruct a; [congruence|reflexivity]. Qed.

Lemma next_node_spec c l x r z : next_node (Node c l x r) z = hd_error (elements r ++ after z).
Proof.
  destruct r as [|c1 l1 x1 r1]; [apply up_right_spec|].
  change (next_node (Node c l x (Node c1 l1 x1 r1)) z) with (first_node (Node c1 l1 x1 r1)).
  rewrite first_node_spec, hd_app; [reflexivity|]. cbn. destruct (elements l1); discriminate.
Qed.
Lemma prev_node_spec c l x r z : prev_node (Node c l x r) z = hd_error (rev (before z ++ elements l)).
Proof.
  destruct l as [|c1 l1 x1 r1]; [cbn; rewrite app_nil_r; apply up_left_spec|].
  change (prev_node (Node c (Node c1 l1 x1 r1) x r) z) with (last_node (Node c1 l1 x1 r1)).
  rewrite last_node_spec, rev_app_distr, hd_app; [reflexivity|].
  intros Q. apply (f_equal (@rev A)) in Q. rewrite rev_involutive in Q. cbn in Q. destruct (elements l1); discriminate.
Qed.
End P.
