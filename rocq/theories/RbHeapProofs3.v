From Verif Require Import Base RbModel RbSpec RbProofs RbHeapModel RbHeapSpec RbHeapProofs RbHeapProofs2.

(** * Membership *)
Lemma times_in a t : 0 < times a t <-> In a (elements t).
Proof.
  induction t as [|c l IHl x r IHr]; [cbn; lia|]. rewrite times_node. cbn [elements]. rewrite in_app_iff. cbn [In]. rewrite <- IHl, <- IHr.
  unfold one. pose proof (times_nn a l). pose proof (times_nn a r). destruct (Z.eqb_spec x a); split; intros; auto; try lia.
Qed.
Lemma times_out a t : ~ In a (elements t) -> times a t = 0.
Proof. intros H. pose proof (times_nn a t). destruct (Z.eq_dec (times a t) 0); [auto|]. exfalso. apply H, times_in. lia. Qed.
Lemma times_once t : (forall a, times a t <= 1) -> NoDup (elements t).
Proof.
  induction t as [|c l IHl x r IHr]; intros U; cbn [elements]; [constructor|].
  assert (U' : forall a, one x a + times a l + times a r <= 1) by (intros a; specialize (U a); rewrite times_node in U; exact U).
  assert (Hl : NoDup (elements l)) by (apply IHl; intros a; specialize (U' a); nn2; lia).
  assert (Hr : NoDup (elements r)) by (apply IHr; intros a; specialize (U' a); nn2; lia).
  apply NoDup_Add with (a := x) (l := elements l ++ elements r); [apply Add_app|]. split.
  - clear - Hl Hr U'. assert (D : forall a, In a (elements l) -> ~ In a (elements r)).
    { intros a A B. apply times_in in A. apply times_in in B. specialize (U' a). nn2. lia. }
    induction (elements l) as [|y ys IH]; cbn [app]; [exact Hr|]. inversion Hl; subst. constructor; [|apply IH; auto; intros; apply D; right; assumption].
    rewrite in_app_iff. intros [I|I]; [contradiction|]. apply (D y (or_introl eq_refl) I).
  - rewrite in_app_iff. intros [I|I]; apply times_in in I; specialize (U' x); rewrite one_refl in U'; nn2; lia.
Qed.
Lemma size_elements t : size t = length (elements t).
Proof. induction t as [|c l IHl x r IHr]; cbn [size elements]; [reflexivity|]. rewrite app_length. cbn [length]. lia. Qed.

(** * Searching and inserting *)
Section Api.
Variable K : Type.
Variable cmp : Z -> K -> Z.
Lemma search_locate k : forall t z, search cmp t k = match fst (locate cmp t k z) with Leaf => None | Node _ _ y _ => Some y end.
Proof.
  induction t as [|c l IHl x r IHr]; intros z; cbn [search locate]; [reflexivity|].
  destruct (cmp x k <? 0); [apply IHl|]. destruct (0 <? cmp x k); [apply IHr|reflexivity].
Qed.
Lemma locate_plug k : forall t z t' z', locate cmp t k z = (t', z') -> plug z' t' = plug z t.
Proof.
  induction t as [|c l IHl x r IHr]; intros z t' z' E; cbn [locate] in E; [injection E as <- <-; reflexivity|].
  destruct (cmp x k <? 0); [rewrite (IHl _ _ _ E); reflexivity|]. destruct (0 <? cmp x k); [rewrite (IHr _ _ _ E); reflexivity|]. injection E as <- <-. reflexivity.
Qed.
Definition found (o : option Z) : Z := match o with Some a => a | None => 0 end.
Lemma rb_search_ok k h : forall t fuel p, holds (at_ h) p t -> (size t < fuel)%nat -> rb_search_from cmp fuel (ptr t) k h = Done (found (search cmp t k)).
Proof.
  induction t as [|c l IHl x r IHr]; intros fuel p H Lf; (destruct fuel as [|fuel]; [lia|]); cbn [rb_search_from ptr search size] in *; [reflexivity|].
  destruct H as (P & C & D1 & D2). rewrite (proj2 (Z.eqb_neq _ _) (proj1 P)), (ld_ok _ _ _ C). red1.
  destruct (cmp x k <? 0); [apply (IHl _ x); [exact D1|lia]|]. destruct (0 <? cmp x k); [apply (IHr _ x); [exact D2|lia]|reflexivity].
Qed.
Definition lside (z : list (frame Z)) (d : bool) : bool := match z with (L, _, _, _) :: _ => true | (R, _, _, _) :: _ => false | [] => d end.
Lemma rb_walk_ok k h d : forall t fuel z t' z', holds (at_ h) (up z 0) t -> (size t < fuel)%nat -> locate cmp t k z = (t', z') ->
  rb_walk cmp fuel (ptr t) (up z 0) (lside z d) k h = Done (ptr t', up z' 0, lside z' d).
Proof.
  induction t as [|c l IHl x r IHr]; intros fuel z t' z' H Lf E; (destruct fuel as [|fuel]; [lia|]); cbn [rb_walk ptr locate size] in *; [injection E as <- <-; reflexivity|].
  destruct H as (P & C & D1 & D2). rewrite (proj2 (Z.eqb_neq _ _) (proj1 P)), (ld_ok _ _ _ C). red1.
  destruct (cmp x k <? 0); [apply (IHl fuel ((L, c, x, r) :: z)); [exact D1|lia|exact E]|].
  destruct (0 <? cmp x k); [apply (IHr fuel ((R, c, x, l) :: z)); [exact D2|lia|exact E]|]. injection E as <- <-. reflexivity.
Qed.
Lemma link_ok new z d h : zst h z Leaf -> place new -> at_ h new <> None -> timesz new z = 0 ->
  exists h', rb_link_node new (up z 0) (lside z d) h = Done h' /\ zst h' z (Node Red Leaf new Leaf) /\
    (forall a, a <> new -> timesz a z = 0 -> at_ h' a = at_ h a).
Proof.
  intros (Rt & Hz & _ & U) P N T. unfold rb_link_node. destruct (at_ h new) as [c|] eqn:C; [|congruence]. rewrite (ld_ok _ _ _ C). red1. cbn [ptr] in *.
  assert (UU : forall a, timesz a z + times a (Node Red Leaf new Leaf) <= 1).
  { intros a. generalize (U a). rewrite times_node, !times_leaf. unfold one. destruct (Z.eqb_spec new a); [subst; rewrite T; lia|lia]. }
  destruct z as [|[[[s k] x] o] z].
  - cbn [up]. change (0 =? 0) with true. cbn iota. eexists. split; [reflexivity|]. split; [|intros a Na _; cbn [at_ put]; apply upd_ne; exact Na].
    split; [reflexivity|]. cbn [at_ put]. split; [exact I|]. split; [|exact UU]. apply hn; [exact P|apply upd_eq|exact I|exact I].
  - destruct Hz as (Px & Cx & D1 & D2). cbn [up]. rewrite (proj2 (Z.eqb_neq _ _) (proj1 Px)).
    assert (Nx : x <> new) by (intros ->; revert T; clear; cbn [timesz]; rewrite one_refl; nn2; lia).
    assert (G : forall h', h' = Heap (root h) (upd (upd (at_ h) new (Some (Cell x 0 0))) x (Some (cellz (up z 0 + bit k) s new (ptr o)))) ->
      zst h' ((s, k, x, o) :: z) (Node Red Leaf new Leaf) /\ (forall a, a <> new -> timesz a ((s, k, x, o) :: z) = 0 -> at_ h' a = at_ h a)).
    { intros h' ->. split; [|intros a A B; cbn [at_]; rewrite !upd_ne; [reflexivity|exact A|]; intros ->; revert B; clear; cbn [timesz]; rewrite one_refl; nn2; lia].
      split; [cbn [rootp] in *; exact Rt|]. cbn [at_]. split; [|split; [|exact UU]].
      - cbn [holdz ptr]. split; [exact Px|]. split; [apply upd_eq|]. split.
        + apply holds_upd; [dis UU|]. apply holds_upd; [dis UU|exact D1].
        + apply holdz_upd; [dis UU|]. apply holdz_upd; [dis UU|exact D2].
      - apply hn; [exact P|rewrite upd_ne by congruence; cbn [up bit ptr]; rewrite Z.add_0_r; apply upd_eq|exact I|exact I]. }
    destruct s; cbn [lside]; [erewrite set_l_ok by (cbn [at_ put]; rewrite upd_ne by exact Nx; exact Cx)|erewrite set_r_ok by (cbn [at_ put]; rewrite upd_ne by exact Nx; exact Cx)];
      (eexists; split; [reflexivity|]); apply G; reflexivity.
Qed.
Lemma rb_insert_node_ok fuel t new k h t' res : stored h t -> (S (size t) < fuel)%nat -> insert cmp t new k = Some (t', res) ->
  (res = None -> place new /\ at_ h new <> None /\ times new t = 0) ->
  exists h', rb_insert_node cmp fuel new k h = Done (found res, h') /\ stored h' t' /\ (res <> None -> h' = h) /\
    forall a, a <> new -> times a t = 0 -> at_ h' a = at_ h a.
Proof.
  intros S Lf E N. unfold insert in E. destruct (locate cmp t k []) as [tl zl] eqn:EL.
  pose proof (locate_plug _ _ _ _ _ EL) as PL. cbn [plug] in PL. pose proof S as (Rt & H & U). unfold rb_insert_node. rewrite Rt.
  pose proof (rb_walk_ok k h true t fuel [] tl zl H ltac:(lia) EL) as W. cbn [up lside] in W. rewrite W. red1. rewrite <- PL in S. apply stored_plug in S.
  destruct tl as [|c l y r].
  - cbn [ptr]. change (0 =? 0) with true. cbn iota. destruct (insert_color _ zl) as [t1|] eqn:EI; [|discriminate]. injection E as <- <-.
    destruct (N eq_refl) as (Pn & An & Tn). rewrite <- PL, times_plug, times_leaf in Tn.
    destruct (link_ok new zl true h S Pn An ltac:(lia)) as (h1 & L1 & L2 & L3). rewrite L1. red1.
    unfold rb_insert_color. pose proof L2 as (_ & _ & (_ & Cn & _) & _). rewrite (ld_ok _ _ _ Cn). red1. cbn [bit]. rewrite Z.add_0_r.
    destruct (rb_insert_ok fuel zl (Node Red Leaf new Leaf) t1 h1) as (h2 & A & B & C); [|exact L2|discriminate|exact EI|].
    { pose proof (sizez_len zl). rewrite <- PL, size_plug in Lf. lia. }
    cbn [ptr] in A. rewrite A. red1. exists h2. split; [reflexivity|]. split; [exact B|]. split; [congruence|].
    intros a Na Ta. rewrite <- PL, times_plug, times_leaf in Ta. rewrite C, L3; auto; [lia|]. rewrite times_node, !times_leaf. rewrite (ne_one new a) by congruence. lia.
  - injection E as <- <-. destruct S as (_ & _ & (P & _) & _). cbn [ptr]. rewrite (proj2 (Z.eqb_neq _ _) (proj1 P)). exists h. split; [reflexivity|]. split; [split; [exact Rt|]; split; assumption|]. auto.
Qed.
Lemma rb_remove_ok fuel t k h t' : stored h t -> (size t < fuel)%nat -> erase cmp t k = Some t' ->
  exists h', rb_remove cmp fuel k h = Done h' /\ stored h' t' /\
    (forall a, times a t = 0 -> at_ h' a = at_ h a) /\ (forall a, search cmp t k = Some a -> at_ h' a = at_ h a).
Proof.
  intros S Lf E. unfold erase in E. destruct (locate cmp t k []) as [tl zl] eqn:EL. pose proof (search_locate k t []) as SL. rewrite EL in SL. cbn [fst] in SL.
  pose proof (locate_plug _ _ _ _ _ EL) as PL. cbn [plug] in PL. pose proof S as (Rt & H & U). unfold rb_remove, rb_search_node. rewrite Rt.
  rewrite (rb_search_ok k h t fuel 0 H Lf). red1. rewrite SL. destruct tl as [|c l y r]; cbn [found].
  - injection E as <-. exists h. split; [reflexivity|]. split; [exact S|]. split; [auto|discriminate].
  - rewrite <- PL in S. apply stored_plug in S. pose proof S as (_ & _ & (P & _) & U2). rewrite (proj2 (Z.eqb_neq _ _) (proj1 P)).
    destruct (rb_erase_ok fuel c l y r zl t' h S ltac:(rewrite PL; exact Lf) E) as (h' & A & B & C). exists h'. split; [exact A|]. split; [exact B|]. split.
    + intros a Ta. apply C. rewrite <- PL, times_plug, times_node in Ta. nn2. lia.
    + intros a Ea. injection Ea as <-. apply C. generalize (U2 y). clear. count. nn2. lia.
Qed.
End Api.

(** * Walking *)
Lemma go_left_ok h : forall t fuel p, holds (at_ h) p t -> t <> Leaf -> (size t < fuel)%nat -> go_left fuel (ptr t) h = Done (found (first_node t)).
Proof.
  induction t as [|c l IHl x r _]; intros fuel p H N Lf; [congruence|]. destruct fuel as [|fuel]; [lia|]. destruct H as (P & C & D1 & D2). cbn [go_left ptr size] in *.
  rewrite (ld_ok _ _ _ C). red1. destruct l as [|cl ll xl rl]; [reflexivity|]. pose proof D1 as (Pl & _). cbn [ptr]. rewrite (proj2 (Z.eqb_neq _ _) (proj1 Pl)).
  change (first_node (Node c (Node cl ll xl rl) x r)) with (first_node (Node cl ll xl rl)). apply (IHl fuel x D1); [discriminate|lia].
Qed.
Lemma go_right_ok h : forall t fuel p, holds (at_ h) p t -> t <> Leaf -> (size t < fuel)%nat -> go_right fuel (ptr t) h = Done (found (last_node t)).
Proof.
  induction t as [|c l _ x r IHr]; intros fuel p H N Lf; [congruence|]. destruct fuel as [|fuel]; [lia|]. destruct H as (P & C & D1 & D2). cbn [go_right ptr size] in *.
  rewrite (ld_ok _ _ _ C). red1. destruct r as [|cl ll xl rl]; [reflexivity|]. pose proof D2 as (Pl & _). cbn [ptr]. rewrite (proj2 (Z.eqb_neq _ _) (proj1 Pl)).
  change (last_node (Node c l x (Node cl ll xl rl))) with (last_node (Node cl ll xl rl)). apply (IHr fuel x D2); [discriminate|lia].
Qed.
Lemma rb_first_ok fuel h t : stored h t -> (size t < fuel)%nat -> rb_first fuel h = Done (found (first_node t)) /\ rb_last fuel h = Done (found (last_node t)).
Proof.
  intros (Rt & H & _) Lf. unfold rb_first, rb_last. rewrite Rt. destruct t as [|c l x r]; [split; reflexivity|].
  pose proof H as (P & _). cbn [ptr]. rewrite (proj2 (Z.eqb_neq _ _) (proj1 P)).
  split; [apply (go_left_ok h (Node c l x r) fuel 0 H)|apply (go_right_ok h (Node c l x r) fuel 0 H)]; first [discriminate|exact Lf].
Qed.
Lemma climb_ok h : forall z n fuel c a b, holdz (at_ h) n z 0 -> (forall v, timesz v z + one n v <= 1) -> n <> 0 -> at_ h n = Some (Cell (up z 0 + bit c) a b) -> (length z < fuel)%nat ->
  climb_right fuel n h = Done (found (up_right z)) /\ climb_left fuel n h = Done (found (up_left z)).
Proof.
  induction z as [|[[[s k] x] o] z IH]; intros n fuel c a b H U N C Lf; (destruct fuel as [|fuel]; [lia|]); cbn [climb_right climb_left]; rewrite (ld_ok _ _ _ C); red1;
    rewrite parent_bit by (eapply up4; exact H); cbn [up up_right up_left]; [split; reflexivity|].
  destruct H as (P & Cx & D & H). rewrite (proj2 (Z.eqb_neq _ _) (proj1 P)), (ld_ok _ _ _ Cx). cbn [length] in Lf.
  assert (No : (n =? ptr o) = false) by (apply Z.eqb_neq, not_eq_sym, ptr_ne; [generalize (U n); clear; count; nn2; lia|exact N]).
  assert (I : exists a b, at_ h x = Some (Cell (up z 0 + bit k) a b)) by (destruct s; cbn [cellz] in Cx; eauto). destruct I as (a1 & b1 & I).
  destruct (IH x fuel k a1 b1 H ltac:(intros v; generalize (U v); clear; count; nn2; lia) (proj1 P) I ltac:(lia)) as [I1 I2].
  destruct s; red1; rewrite ?Z.eqb_refl, ?No; split; first [exact I1|exact I2|reflexivity].
Qed.
Lemma rb_next_ok fuel h c l x r z : zst h z (Node c l x r) -> (size (plug z (Node c l x r)) < fuel)%nat ->
  rb_next fuel x h = Done (found (next_node (Node c l x r) z)) /\ rb_prev fuel x h = Done (found (prev_node (Node c l x r) z)).
Proof.
  intros (Rt & Hz & (P & C & D1 & D2) & U) Lf. rewrite size_plug in Lf. cbn [size] in Lf. pose proof (sizez_len z) as Lz.
  unfold rb_next, rb_prev. rewrite (ld_ok _ _ _ C). red1.
  assert (E : (up z 0 + bit c =? x) = false).
  { apply Z.eqb_neq. intros E. pose proof (up4 _ _ _ Hz) as F1. pose proof (place4 _ P) as F2. assert (F3 : up z 0 = x) by (destruct c; cbn [bit] in E; [lia|]; exfalso; Z.div_mod_to_equations; lia).
    destruct z as [|[[[s k] y] o] z]; cbn [up] in F3; [destruct P; congruence|]. subst y. generalize (U x). clear. count. nn2. lia. }
  rewrite E. destruct (climb_ok h z x fuel c (ptr l) (ptr r) Hz ltac:(intros v; generalize (U v); clear; count; nn2; lia) (proj1 P) C ltac:(lia)) as [K1 K2].
  split.
  - destruct r as [|cr lr xr rr]; [exact K1|]. pose proof D2 as (Pr & _). cbn [ptr]. rewrite (proj2 (Z.eqb_neq _ _) (proj1 Pr)). cbn [next_node].
    apply (go_left_ok h (Node cr lr xr rr) fuel x D2); [discriminate|lia].
  - destruct l as [|cr lr xr rr]; [exact K2|]. pose proof D1 as (Pr & _). cbn [ptr]. rewrite (proj2 (Z.eqb_neq _ _) (proj1 Pr)). cbn [prev_node].
    apply (go_right_ok h (Node cr lr xr rr) fuel x D1); [discriminate|lia].
Qed.

(** * Destroying: what is left to do is a list of nodes, each the parent of the one before, with
    their right subtrees *)
Definition pends := list (Z * tree Z).
Definition headp (zs : pends) : Z := match zs with [] => 0 | (x, _) :: _ => x end.
Fixpoint pend (m : Z -> option cell) (zs : pends) : Prop :=
  match zs with
  | [] => True
  | (x, o) :: zs' => place x /\ (exists c l, m x = Some (Cell (headp zs' + bit c) l (ptr o))) /\ holds m x o /\ pend m zs'
  end.
Fixpoint timesp (a : Z) (zs : pends) : Z := match zs with [] => 0 | (x, o) :: zs' => one x a + times a o + timesp a zs' end.
Fixpoint flat (zs : pends) : list Z := match zs with [] => [] | (x, o) :: zs' => x :: elements o ++ flat zs' end.
Fixpoint spine (t : tree Z) (zs : pends) : pends := match t with Leaf => zs | Node _ l x r => spine l ((x, r) :: zs) end.
Lemma timesp_nn a zs : 0 <= timesp a zs.
Proof. induction zs as [|[x o] zs IH]; cbn [timesp]; [lia|]. nn2. lia. Qed.
Lemma flat_spine : forall t zs, flat (spine t zs) = elements t ++ flat zs.
Proof. induction t as [|c l IHl x r _]; intros zs; cbn [spine elements]; [reflexivity|]. rewrite IHl. cbn [flat]. rewrite <- app_assoc. reflexivity. Qed.
Lemma timesp_spine a : forall t zs, timesp a (spine t zs) = times a t + timesp a zs.
Proof. induction t as [|c l IHl x r _]; intros zs; cbn [spine]; [rewrite times_leaf; lia|]. rewrite IHl, times_node. cbn [timesp]. lia. Qed.
Lemma pend_spine m : forall t zs, holds m (headp zs) t -> pend m zs -> pend m (spine t zs).
Proof.
  induction t as [|c l IHl x r _]; intros zs H P; cbn [spine]; [exact P|]. destruct H as (P1 & C & D1 & D2). apply IHl; [exact D1|].
  cbn [pend]. split; [exact P1|]. split; [eauto|]. split; assumption.
Qed.
Lemma pend_ext m m' : forall zs, pend m zs -> (forall a, 0 < timesp a zs -> m' a = m a) -> pend m' zs.
Proof.
  induction zs as [|[x o] zs IH]; intros H E; cbn [pend] in *; [exact I|]. destruct H as (P & C & D & H). cbn [timesp] in E.
  split; [exact P|]. split; [rewrite E by (rewrite one_refl; pose proof (times_nn x o); pose proof (timesp_nn x zs); lia); exact C|].
  split; [eapply holds_ext; [exact D|]; intros a Ha; apply E; pose proof (one_nn x a); pose proof (timesp_nn a zs); lia|].
  apply IH; [exact H|]. intros a Ha. apply E. pose proof (one_nn x a). pose proof (times_nn a o). lia.
Qed.
Lemma go_spine h : forall t fuel zs, holds (at_ h) (headp zs) t -> t <> Leaf -> (size t < fuel)%nat -> go_left fuel (ptr t) h = Done (headp (spine t zs)).
Proof.
  intros t fuel zs H N Lf. rewrite (go_left_ok h t fuel _ H N Lf). f_equal. clear - N. revert zs. induction t as [|c l IHl x r _]; intros zs; [congruence|].
  destruct l as [|cl ll xl rl]; [reflexivity|]. cbn [spine]. change (first_node (Node c (Node cl ll xl rl) x r)) with (first_node (Node cl ll xl rl)). apply (IHl ltac:(discriminate) ((x, r) :: zs)).
Qed.
Lemma destroy_ok : forall fuel zs freed h, (length (flat zs) < fuel)%nat -> pend (at_ h) zs -> (forall a, timesp a zs <= 1) ->
  exists h', rb_destroy_from fuel (headp zs) freed h = Done (freed ++ flat zs, h') /\ root h' = root h /\ forall a, at_ h' a = if 0 <? timesp a zs then None else at_ h a.
Proof.
  induction fuel as [|fuel IH]; intros zs freed h Lf H U; [lia|]. destruct zs as [|[x o] zs].
  - exists h. cbn. rewrite app_nil_r. auto.
  - cbn [rb_destroy_from headp]. destruct H as (P & (c & lf & C) & D & H). rewrite (proj2 (Z.eqb_neq _ _) (proj1 P)), (ld_ok _ _ _ C). cbn [flat length] in Lf. rewrite app_length in Lf.
    assert (H4 : headp zs mod 4 = 0) by (destruct zs as [|[y oy] zs]; [reflexivity|]; apply place4, H).
    red1. rewrite parent_bit by exact H4. cbn [timesp] in U.
    assert (Ux := U x). rewrite one_refl in Ux. pose proof (times_nn x o) as U1. pose proof (timesp_nn x zs) as U2.
    destruct o as [|co lo xo ro].
    + cbn [ptr]. change (0 =? 0) with true. cbn iota.
      assert (E : destroy_up (S fuel) x (headp zs) (drop x h) = Done (headp zs)).
      { cbn [destroy_up]. destruct zs as [|[y oy] zs]; [reflexivity|]. cbn [headp]. destruct H as (Py & (cy & ly & Cy) & Dy & Hy). rewrite (proj2 (Z.eqb_neq _ _) (proj1 Py)).
        assert (Nxy : y <> x). { intros ->. cbn [timesp] in Ux. rewrite one_refl in Ux. pose proof (times_nn x oy). pose proof (timesp_nn x zs). lia. }
        erewrite ld_ok by (unfold drop; cbn [at_]; rewrite upd_ne by exact Nxy; exact Cy). red1.
        assert (Nr : (x =? ptr oy) = false). { apply Z.eqb_neq, not_eq_sym, ptr_ne; [|apply P]. cbn [timesp] in Ux. pose proof (times_nn x oy). pose proof (timesp_nn x zs). pose proof (one_nn y x). lia. }
        rewrite Nr. reflexivity. }
      rewrite E. red1. destruct (IH zs (freed ++ [x]) (drop x h)) as (h' & A & B & F).
      * cbn [elements length] in Lf. lia.
      * eapply pend_ext; [exact H|]. intros a Ha. unfold drop. cbn [at_]. apply upd_ne. intros ->. lia.
      * intros a. specialize (U a). pose proof (one_nn x a). pose proof (times_nn a Leaf). lia.
      * exists h'. rewrite A. cbn [flat elements app]. rewrite <- app_assoc. split; [reflexivity|]. split; [exact B|].
        intros a. rewrite F. unfold drop. cbn [at_ timesp]. rewrite times_leaf. pose proof (timesp_nn a zs). unfold one.
        destruct (Z.eqb_spec x a) as [<-|Na]; [rewrite upd_eq; replace (timesp x zs) with 0 by lia; reflexivity|]. rewrite upd_ne by congruence. replace (0 + 0 + timesp a zs) with (timesp a zs) by lia. reflexivity.
    + pose proof D as (Po & Co & Do1 & Do2). cbn [ptr]. rewrite (proj2 (Z.eqb_neq _ _) (proj1 Po)).
      rewrite times_node in U1, Ux. assert (Uo := U xo). rewrite times_node, one_refl in Uo.
      assert (Nxo : xo <> x). { intros ->. rewrite one_refl in Uo. pose proof (times_nn x lo). pose proof (times_nn x ro). pose proof (timesp_nn x zs). lia. }
      erewrite set_pc_ok by (unfold drop; cbn [at_]; rewrite upd_ne by exact Nxo; exact Co). red1. unfold drop. cbn [at_ root].
      set (h1 := Heap _ _).
      assert (K : forall a, one x a + one xo a = 0 -> at_ h1 a = at_ h a) by (intros a Ha; unfold h1; cbn [at_]; rewrite !upd_ne; [reflexivity|..]; intros ->; rewrite one_refl in Ha; nn2; lia).
      assert (Ho : holds (at_ h1) (headp zs) (Node Red lo xo ro)).
      { apply hn; [exact Po|unfold h1; cbn [at_ bit]; rewrite Z.add_0_r; apply upd_eq|..]; (eapply holds_ext; [eassumption|]); intros a Ha; apply K; specialize (U a); rewrite times_node in U;
          unfold one in *; destruct (Z.eqb_spec x a); destruct (Z.eqb_spec xo a); subst; nn2; pose proof (timesp_nn a zs); pose proof (times_nn a lo); pose proof (times_nn a ro); lia. }
      assert (Hp : pend (at_ h1) zs).
      { eapply pend_ext; [exact H|]. intros a Ha. apply K. specialize (U a). rewrite times_node in U.
        unfold one in *; destruct (Z.eqb_spec x a); destruct (Z.eqb_spec xo a); subst; pose proof (times_nn a lo); pose proof (times_nn a ro); lia. }
      assert (Sz : (size (Node Red lo xo ro) < S fuel)%nat) by (rewrite size_elements; cbn [elements]; cbn [elements] in Lf; lia).
      pose proof (go_spine h1 (Node Red lo xo ro) (S fuel) zs Ho ltac:(discriminate) Sz) as G. cbn [ptr] in G. rewrite G. red1.
      destruct (IH (spine (Node Red lo xo ro) zs) (freed ++ [x]) h1) as (h' & A & B & F).
      * rewrite flat_spine, app_length. cbn [elements] in *. lia.
      * apply pend_spine; assumption.
      * intros a. rewrite timesp_spine. specialize (U a). rewrite times_node in *. pose proof (one_nn x a). lia.
      * exists h'. rewrite A, flat_spine. cbn [flat]. rewrite <- app_assoc. split; [reflexivity|]. split; [exact B|].
        intros a. rewrite F, timesp_spine. cbn [timesp]. rewrite !times_node. specialize (U a). rewrite times_node in U.
        pose proof (timesp_nn a zs). pose proof (times_nn a lo). pose proof (times_nn a ro). unfold one in *. unfold h1. cbn [at_].
        destruct (Z.eqb_spec xo a) as [Ea|N1].
        -- subst a. rewrite (proj2 (Z.ltb_lt _ _)) by lia. destruct (x =? xo); [|]; rewrite (proj2 (Z.ltb_lt _ _)) by lia; reflexivity.
        -- rewrite upd_ne by congruence. destruct (Z.eqb_spec x a) as [Ea|N2].
           ++ subst a. rewrite upd_eq. rewrite (proj2 (Z.ltb_lt 0 (1 + _ + _))) by lia. destruct (0 <? _); reflexivity.
           ++ rewrite upd_ne by congruence. replace (0 + (0 + times a lo + times a ro) + timesp a zs) with (0 + times a lo + times a ro + timesp a zs) by lia. reflexivity.
Qed.
Theorem rb_destroy_ok fuel t h : stored h t -> (size t < fuel)%nat ->
  exists h', rb_destroy fuel h = Done (elements t, h') /\ root h' = root h /\ forall a, at_ h' a = if 0 <? times a t then None else at_ h a.
Proof.
  intros (Rt & H & U) Lf. unfold rb_destroy, rb_first. rewrite Rt. rewrite size_elements in Lf.
  assert (E : (if ptr t =? 0 then Done 0 else go_left fuel (ptr t) h) = Done (headp (spine t []))).
  { destruct t as [|c l x r]; [reflexivity|]. pose proof H as (P & _). cbn [ptr]. rewrite (proj2 (Z.eqb_neq _ _) (proj1 P)).
    apply (go_spine h (Node c l x r) fuel []); [exact H|discriminate|rewrite size_elements; exact Lf]. }
  rewrite E. red1. destruct (destroy_ok fuel (spine t []) [] h) as (h' & A & B & C).
  - rewrite flat_spine. cbn [flat]. rewrite app_nil_r. exact Lf.
  - apply pend_spine; [exact H|exact I].
  - intros a. rewrite timesp_spine. cbn [timesp]. specialize (U a). lia.
  - exists h'. rewrite A, flat_spine. cbn [flat app]. rewrite app_nil_r. split; [reflexivity|]. split; [congruence|].
    intros a. rewrite C, timesp_spine. cbn [timesp]. rewrite Z.add_0_r. reflexivity.
Qed.
