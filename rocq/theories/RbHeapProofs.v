From Verif Require Import Base RbModel RbSpec RbProofs RbHeapModel RbHeapSpec.

(** * Words *)
Lemma parent_bit p c : p mod 4 = 0 -> parent_of (p + bit c) = p.
Proof.
  intros H. unfold parent_of. rewrite <- Z.ldiff_land. change 3 with (Z.ones 2). rewrite Z.ldiff_ones_r by lia.
  rewrite Z.shiftr_div_pow2, Z.shiftl_mul_pow2 by lia. change (2 ^ 2) with 4. destruct c; cbn [bit]; Z.div_mod_to_equations; lia.
Qed.
Lemma black_bit p c : p mod 4 = 0 -> black (p + bit c) = match c with Black => true | Red => false end.
Proof.
  intros H. unfold black. change 1 with (Z.ones 1) at 1. rewrite Z.land_ones by lia. change (2 ^ 1) with 2.
  destruct c; cbn [bit]; [destruct (Z.eqb_spec ((p + 0) mod 2) 0)|destruct (Z.eqb_spec ((p + 1) mod 2) 0)]; cbn; try reflexivity; exfalso; Z.div_mod_to_equations; lia.
Qed.
Lemma lor_bit p c : p mod 4 = 0 -> Z.lor p (bit c) = p + bit c.
Proof.
  intros H. assert (E : Z.land p (bit c) = 0).
  { destruct c; cbn [bit]; [apply Z.land_0_r|]. change 1 with (Z.ones 1). rewrite Z.land_ones by lia. change (2 ^ 1) with 2. Z.div_mod_to_equations; lia. }
  rewrite Z.add_nocarry_lxor by exact E. symmetry. apply Z.lxor_lor, E.
Qed.
Lemma land1_bit p c : p mod 4 = 0 -> Z.land (p + bit c) 1 = bit c.
Proof. intros H. change 1 with (Z.ones 1) at 1. rewrite Z.land_ones by lia. change (2 ^ 1) with 2. destruct c; cbn [bit]; Z.div_mod_to_equations; lia. Qed.

(** * Counting *)
Definition one (x a : Z) : Z := if x =? a then 1 else 0.
Lemma one_refl a : one a a = 1.
Proof. unfold one. rewrite Z.eqb_refl. reflexivity. Qed.
Lemma one_nn x a : 0 <= one x a.
Proof. unfold one. destruct (x =? a); lia. Qed.
Lemma one_ne x a : one x a = 0 -> x <> a.
Proof. unfold one. destruct (Z.eqb_spec x a); [lia|auto]. Qed.
Lemma ne_one x a : x <> a -> one x a = 0.
Proof. unfold one. destruct (Z.eqb_spec x a); [tauto|auto]. Qed.
Lemma times_node a c l x r : times a (Node c l x r) = one x a + times a l + times a r.
Proof. reflexivity. Qed.
Lemma times_leaf a : times a Leaf = 0.
Proof. reflexivity. Qed.
Lemma times_nn a t : 0 <= times a t.
Proof. induction t as [|c l IHl x r IHr]; [cbn; lia|]. rewrite times_node. pose proof (one_nn x a). lia. Qed.
Lemma times_recolor a c t : times a (recolor c t) = times a t.
Proof. destruct t; reflexivity. Qed.
Lemma times_mk a s c x t o : times a (mk s c x t o) = one x a + times a t + times a o.
Proof. destruct s; cbn [mk]; rewrite times_node; lia. Qed.
Fixpoint timesz (a : Z) (z : list (frame Z)) : Z :=
  match z with [] => 0 | (_, _, x, o) :: z' => one x a + times a o + timesz a z' end.
Lemma timesz_nn a z : 0 <= timesz a z.
Proof. induction z as [|[[[s c] x] o] z IH]; cbn [timesz]; [lia|]. pose proof (one_nn x a). pose proof (times_nn a o). lia. Qed.
Lemma times_plug a z : forall t, times a (plug z t) = timesz a z + times a t.
Proof. induction z as [|[[[s c] x] o] z IH]; intros t; cbn [plug timesz]; [lia|]. rewrite IH, times_mk. lia. Qed.
Lemma timesz_app a z1 z2 : timesz a (z1 ++ z2) = timesz a z1 + timesz a z2.
Proof. induction z1 as [|[[[s c] x] o] z IH]; cbn [timesz app]; lia. Qed.
Lemma times_ptr t : t <> Leaf -> 1 <= times (ptr t) t.
Proof. destruct t as [|c l x r]; [congruence|]. intros _. cbn [ptr]. rewrite times_node, one_refl. pose proof (times_nn x l). pose proof (times_nn x r). lia. Qed.

(** * Paths *)
Definition up (z : list (frame Z)) (top : Z) : Z := match z with [] => top | (_, _, x, _) :: _ => x end.
Fixpoint rootp (z : list (frame Z)) (hole : Z) : Z := match z with [] => hole | (_, _, x, _) :: z' => rootp z' x end.
Definition cellz (w : Z) (s : side) (a b : Z) : cell := match s with L => Cell w a b | R => Cell w b a end.
Fixpoint holdz (m : Z -> option cell) (hole : Z) (z : list (frame Z)) (top : Z) : Prop :=
  match z with
  | [] => True
  | (s, c, x, o) :: z' => place x /\ m x = Some (cellz (up z' top + bit c) s hole (ptr o)) /\ holds m x o /\ holdz m x z' top
  end.
Lemma ptr_mk s c x t o : ptr (mk s c x t o) = x.
Proof. destruct s; reflexivity. Qed.
Lemma ptr_recolor c t : ptr (recolor c t) = ptr t.
Proof. destruct t; reflexivity. Qed.
Lemma ptr_plug z : forall t, ptr (plug z t) = rootp z (ptr t).
Proof. induction z as [|[[[s c] x] o] z IH]; intros t; cbn [plug rootp]; [reflexivity|]. rewrite IH, ptr_mk. reflexivity. Qed.
Lemma holds_mk m p s c x t o : holds m p (mk s c x t o) <-> place x /\ m x = Some (cellz (p + bit c) s (ptr t) (ptr o)) /\ holds m x t /\ holds m x o.
Proof. destruct s; cbn [mk holds cellz]; tauto. Qed.
Lemma holds_plug m top z : forall t, holds m top (plug z t) <-> holdz m (ptr t) z top /\ holds m (up z top) t.
Proof.
  induction z as [|[[[s c] x] o] z IH]; intros t; cbn [plug holdz up]; [tauto|]. rewrite IH, ptr_mk, holds_mk. tauto.
Qed.
Lemma holdz_app m z2 top : forall z1 hole, holdz m hole (z1 ++ z2) top <-> holdz m hole z1 (up z2 top) /\ holdz m (rootp z1 hole) z2 top.
Proof.
  induction z1 as [|[[[s c] x] o] z IH]; intros hole; cbn [app holdz rootp]; [tauto|]. rewrite IH.
  assert (E : up (z ++ z2) top = up z (up z2 top)) by (destruct z; reflexivity). rewrite E. tauto.
Qed.
Definition zst (h : heap) (z : list (frame Z)) (t : tree Z) : Prop :=
  root h = rootp z (ptr t) /\ holdz (at_ h) (ptr t) z 0 /\ holds (at_ h) (up z 0) t /\ forall a, timesz a z + times a t <= 1.
Lemma stored_plug h z t : stored h (plug z t) <-> zst h z t.
Proof.
  unfold stored, zst. rewrite ptr_plug, holds_plug. split; intros (A & B & C).
  - repeat split; try tauto. intros a. rewrite <- times_plug. apply C.
  - repeat split; try tauto. intros a. rewrite times_plug. apply C.
Qed.

(** * Frames *)
Lemma upd_eq m a c : upd m a c a = c.
Proof. unfold upd. rewrite Z.eqb_refl. reflexivity. Qed.
Lemma upd_ne m a b c : b <> a -> upd m a c b = m b.
Proof. unfold upd. intros H. apply Z.eqb_neq in H. rewrite H. reflexivity. Qed.
Lemma holds_ext m m' t : forall p, holds m p t -> (forall a, 0 < times a t -> m' a = m a) -> holds m' p t.
Proof.
  induction t as [|c l IHl x r IHr]; intros p H E; cbn [holds] in *; [exact I|]. destruct H as (A & B & C & D). split; [exact A|]. split.
  - rewrite E; [exact B|]. rewrite times_node, one_refl. pose proof (times_nn x l). pose proof (times_nn x r). lia.
  - split; [apply IHl|apply IHr]; auto; intros a Ha; apply E; rewrite times_node; pose proof (one_nn x a); pose proof (times_nn a l); pose proof (times_nn a r); lia.
Qed.
Lemma holdz_ext m m' z top : forall hole, holdz m hole z top -> (forall a, 0 < timesz a z -> m' a = m a) -> holdz m' hole z top.
Proof.
  induction z as [|[[[s c] x] o] z IH]; intros hole H E; cbn [holdz timesz] in *; [exact I|]. destruct H as (A & B & C & D). split; [exact A|]. split.
  - rewrite E; [exact B|]. rewrite one_refl. pose proof (times_nn x o). pose proof (timesz_nn x z). lia.
  - split; [apply (holds_ext m)|apply IH]; auto; intros a Ha; apply E; pose proof (one_nn x a); pose proof (times_nn a o); pose proof (timesz_nn a z); lia.
Qed.
Lemma holds_upd m x c p t : times x t = 0 -> holds m p t -> holds (upd m x c) p t.
Proof. intros N H. apply (holds_ext m _ _ _ H). intros a Ha. apply upd_ne. intros ->. lia. Qed.
Lemma holdz_upd m x c hole z top : timesz x z = 0 -> holdz m hole z top -> holdz (upd m x c) hole z top.
Proof. intros N H. apply (holdz_ext m _ _ _ _ H). intros a Ha. apply upd_ne. intros ->. lia. Qed.
Definition rp (m : Z -> option cell) (t : tree Z) (p : Z) (c : color) : Z -> option cell :=
  match t with Leaf => m | Node _ l x r => upd m x (Some (Cell (p + bit c) (ptr l) (ptr r))) end.
Lemma rp_ne m t p c a : times a t = 0 -> rp m t p c a = m a.
Proof.
  destruct t as [|c' l x r]; cbn [rp]; [reflexivity|]. rewrite times_node. intros H. apply upd_ne. intros ->. rewrite one_refl in H.
  pose proof (times_nn x l). pose proof (times_nn x r). lia.
Qed.
Lemma rp_holds m t q p c : holds m q t -> (forall a, times a t <= 1) -> holds (rp m t p c) p (recolor c t).
Proof.
  destruct t as [|c' l x r]; cbn [rp recolor holds]; [auto|]. intros (A & B & C & D) U. split; [exact A|]. split; [apply upd_eq|].
  specialize (U x). rewrite times_node, one_refl in U. pose proof (times_nn x l). pose proof (times_nn x r).
  split; apply holds_upd; auto; lia.
Qed.
Lemma holds_rp m t p c q u : (forall a, times a t + times a u <= 1) -> holds m q u -> holds (rp m t p c) q u.
Proof. intros U H. apply (holds_ext m _ _ _ H). intros a Ha. apply rp_ne. specialize (U a). pose proof (times_nn a t). lia. Qed.
Lemma holdz_rp m t p c hole z top : (forall a, times a t + timesz a z <= 1) -> holdz m hole z top -> holdz (rp m t p c) hole z top.
Proof. intros U H. apply (holdz_ext m _ _ _ _ H). intros a Ha. apply rp_ne. specialize (U a). pose proof (times_nn a t). lia. Qed.
Lemma place4 a : place a -> a mod 4 = 0.
Proof. intros [_ H]. exact H. Qed.
Lemma up4 m hole z : holdz m hole z 0 -> up z 0 mod 4 = 0.
Proof. destruct z as [|[[[s c] x] o] z]; cbn; [reflexivity|]. intros [[_ H] _]. exact H. Qed.
Lemma up0 m hole s c x o z : holdz m hole ((s, c, x, o) :: z) 0 -> (x =? 0) = false.
Proof. intros [[H _] _]. apply Z.eqb_neq, H. Qed.
Lemma ptr_ne a t : times a t = 0 -> a <> 0 -> ptr t <> a.
Proof. destruct t as [|c l x r]; cbn [ptr]; [auto|]. intros H _ E. subst a. rewrite times_node, one_refl in H. pose proof (times_nn x l). pose proof (times_nn x r). lia. Qed.

(** * Instructions *)
Lemma ld_ok a h c : at_ h a = Some c -> ld a h = Done c.
Proof. unfold ld. intros ->. reflexivity. Qed.
Lemma set_l_ok a v h c : at_ h a = Some c -> set_l a v h = Done (Heap (root h) (upd (at_ h) a (Some (Cell (pc c) v (rgt c))))).
Proof. unfold set_l, ld. intros ->. reflexivity. Qed.
Lemma set_r_ok a v h c : at_ h a = Some c -> set_r a v h = Done (Heap (root h) (upd (at_ h) a (Some (Cell (pc c) (lft c) v)))).
Proof. unfold set_r, ld. intros ->. reflexivity. Qed.
Lemma set_pc_ok a v h c : at_ h a = Some c -> set_pc a v h = Done (Heap (root h) (upd (at_ h) a (Some (Cell v (lft c) (rgt c))))).
Proof. unfold set_pc, ld. intros ->. reflexivity. Qed.
Lemma spc_ok a p k h c : p mod 4 = 0 -> at_ h a = Some c ->
  rb_set_parent_color a p (bit k) h = Done (Heap (root h) (upd (at_ h) a (Some (Cell (p + bit k) (lft c) (rgt c))))).
Proof. intros P H. unfold rb_set_parent_color. rewrite lor_bit by exact P. apply set_pc_ok, H. Qed.
Lemma opt_spc_ok t p k q h : p mod 4 = 0 -> holds (at_ h) q t ->
  opt_set_parent_color (ptr t) p (bit k) h = Done (Heap (root h) (rp (at_ h) t p k)).
Proof.
  intros P H. unfold opt_set_parent_color. destruct t as [|c l x r]; cbn [ptr rp]; [destruct h; reflexivity|]. destruct H as ((N & _) & B & _).
  apply Z.eqb_neq in N. rewrite N. rewrite (spc_ok _ _ _ _ _ P B). reflexivity.
Qed.
Lemma red_there_ok t q h : q mod 4 = 0 -> holds (at_ h) q t -> red_there (ptr t) h = Done (is_red t).
Proof.
  intros P H. unfold red_there. destruct t as [|c l x r]; cbn [ptr]; [reflexivity|]. destruct H as ((N & _) & B & _).
  apply Z.eqb_neq in N. rewrite N, (ld_ok _ _ _ B). cbn [seq pc]. rewrite black_bit by exact P. destruct c; reflexivity.
Qed.
Lemma change_child_ok old new z h : holdz (at_ h) old z 0 -> (forall a, timesz a z <= 1) -> timesz old z = 0 -> old <> 0 -> root h = rootp z old ->
  exists m', change_child old new (up z 0) h = Done (Heap (rootp z new) m') /\ holdz m' new z 0 /\ forall a, timesz a z = 0 -> m' a = at_ h a.
Proof.
  intros H U T N Rt. unfold change_child. destruct z as [|[[[s c] x] o] z]; cbn [up rootp timesz] in *.
  - exists (at_ h). repeat split; auto.
  - destruct H as (P & C & D & E). rewrite (proj2 (Z.eqb_neq x 0) (proj1 P)). rewrite (ld_ok _ _ _ C). cbn [seq].
    pose proof (one_nn x old). pose proof (times_nn old o). pose proof (timesz_nn old z).
    assert (F : (lft (cellz (up z 0 + bit c) s old (ptr o)) =? old) = match s with L => true | R => false end).
    { destruct s; cbn [cellz lft]; [apply Z.eqb_refl|]. apply Z.eqb_neq, ptr_ne; [lia|exact N]. }
    rewrite F. assert (Ux : times x o = 0 /\ timesz x z = 0).
    { specialize (U x). rewrite one_refl in U. pose proof (times_nn x o). pose proof (timesz_nn x z). lia. }
    destruct Ux as [U1 U2].
    assert (G : forall m', m' = upd (at_ h) x (Some (cellz (up z 0 + bit c) s new (ptr o))) ->
      holdz m' new ((s, c, x, o) :: z) 0 /\ forall a, one x a + times a o + timesz a z = 0 -> m' a = at_ h a).
    { intros m' ->. cbn [holdz]. split; [split; [exact P|]; split; [apply upd_eq|]; split; [apply holds_upd|apply holdz_upd]; auto|].
      intros a Ha. apply upd_ne. intros ->. rewrite one_refl in Ha. pose proof (times_nn x o). pose proof (timesz_nn x z). lia. }
    destruct s; [rewrite (set_l_ok _ _ _ _ C)|rewrite (set_r_ok _ _ _ _ C)]; cbn [cellz pc lft rgt] in *; rewrite Rt; eexists; (split; [reflexivity|]);
      apply G; reflexivity.
Qed.

(** * Symbolic execution *)
Ltac learn H := let T := type of H in lazymatch goal with K : T |- _ => fail | _ => pose proof H end.
Ltac nn2 := repeat match goal with
  | _ : context [times ?a ?t] |- _ => learn (times_nn a t) | |- context [times ?a ?t] => learn (times_nn a t)
  | _ : context [timesz ?a ?t] |- _ => learn (timesz_nn a t) | |- context [timesz ?a ?t] => learn (timesz_nn a t)
  | _ : context [one ?a ?t] |- _ => learn (one_nn a t) | |- context [one ?a ?t] => learn (one_nn a t)
  end.
Ltac count := repeat (progress (cbn [timesz mk recolor]; rewrite ?times_plug, ?timesz_app, ?times_mk, ?times_node, ?times_recolor, ?times_leaf, ?one_refl)).
Ltac cnt U x := generalize (U x); clear; count; let H := fresh in intros H; nn2; lia.
Ltac dis U := lazymatch goal with
  | |- ?x <> ?y => apply one_ne; cnt U y
  | |- times ?x _ = 0 => cnt U x
  | |- timesz ?x _ = 0 => cnt U x
  | |- forall a, _ => let a := fresh "a" in intros a; cnt U a
  end.
Ltac look U := cbn [at_ root]; repeat first [rewrite upd_eq | rewrite upd_ne by (dis U) | rewrite rp_ne by (dis U)]; first [reflexivity|eassumption].
Ltac four := first [assumption | reflexivity | eapply place4; eassumption | eapply up4; eassumption].
Ltac frame U := repeat first [eassumption | eapply holds_upd; [dis U|] | eapply holdz_upd; [dis U|] | eapply holds_rp; [dis U|] | eapply holdz_rp; [dis U|] | eapply rp_holds; [|dis U]].
Ltac red1 := cbn [seq root at_ pc lft rgt cellz negb andb]; cbv beta iota zeta.
Ltac exec U := repeat (red1; first
  [ erewrite set_l_ok by look U | erewrite set_r_ok by look U
  | progress change RB_BLACK with (bit Black) | progress change RB_RED with (bit Red)
  | erewrite spc_ok by (first [four | look U]) 
  | erewrite opt_spc_ok by (first [four | cbn [at_]; frame U])
  | erewrite ld_ok by look U ]); red1.

Lemma rotate_ok old new k z h c m0 : at_ h old = Some c -> pc c = up z 0 + bit k -> holdz (at_ h) old z 0 -> (forall a, timesz a z <= 1) ->
  timesz old z = 0 -> timesz new z = 0 -> old <> 0 -> old <> new -> new mod 4 = 0 -> root h = rootp z old -> forall cn k', at_ h new = Some cn ->
  m0 = upd (upd (at_ h) new (Some (Cell (up z 0 + bit k) (lft cn) (rgt cn)))) old (Some (Cell (new + bit k') (lft c) (rgt c))) ->
  exists m', rotate_set_parents old new (bit k') h = Done (Heap (rootp z new) m') /\ holdz m' new z 0 /\ forall a, timesz a z = 0 -> m' a = m0 a.
Proof.
  intros A P H U T1 T2 N ON N4 Rt cn k' B ->. unfold rotate_set_parents. rewrite (ld_ok _ _ _ A). cbn [seq]. rewrite P, parent_bit by (eapply up4; eassumption).
  rewrite (set_pc_ok _ _ _ _ B). cbn [seq root at_]. erewrite spc_ok; [|exact N4|cbn [at_]; rewrite upd_ne by exact ON; exact A]. cbn [seq root at_].
  destruct (change_child_ok old new z (Heap (root h) (upd (upd (at_ h) new (Some (Cell (up z 0 + bit k) (lft cn) (rgt cn)))) old (Some (Cell (new + bit k') (lft c) (rgt c)))))) as (m' & E & F & G); auto.
  - cbn [at_]. apply holdz_upd; [exact T1|]. apply holdz_upd; [exact T2|exact H].
  - exists m'. split; [exact E|]. split; [exact F|exact G].
Qed.

Ltac eqs := repeat first [rewrite Z.eqb_refl | rewrite Z.add_0_r].
Ltac rot U K old new z := 
  lazymatch goal with |- context [rotate_set_parents _ _ _ ?h] =>
    let m' := fresh "m'" in let E := fresh "E" in let F := fresh "F" in let G := fresh "G" in
    edestruct (rotate_ok old new K z h) as (m' & E & F & G);
    [ look U | red1; reflexivity | cbn [at_]; frame U | dis U | dis U | dis U | first [assumption|match goal with P : place old |- _ => exact (proj1 P) end] | dis U | four | cbn [root]; assumption | look U | reflexivity |
      rewrite E; cbn [at_ pc lft rgt cellz] in G ] end.
Ltac sub U G := eapply holds_ext; [|let a := fresh in let Ha := fresh in intros a Ha; apply G; generalize (U a); revert Ha; clear; count; nn2; lia]; frame U.
Lemma hn m p c l a r : place a -> m a = Some (Cell (p + bit c) (ptr l) (ptr r)) -> holds m a l -> holds m a r -> holds m p (Node c l a r).
Proof. cbn [holds]. auto. Qed.
Ltac nodes U G := repeat (lazymatch goal with |- holds _ _ (Node _ _ _ _) =>
    apply hn; [assumption|cbn [ptr]; rewrite ?ptr_recolor; rewrite G by dis U; look U| |] end).
Ltac outside G := let a := fresh in let Ha := fresh in intros a; cbn [at_]; count; intros Ha; rewrite ?G by (nn2; lia);
  repeat first [rewrite upd_ne by (apply not_eq_sym, one_ne; nn2; lia) | rewrite rp_ne by (nn2; lia)]; reflexivity.
Ltac fin U F G := eexists; split; [reflexivity|]; split;
  [rewrite stored_plug; split; [reflexivity|]; cbn [at_ ptr]; split; [exact F|]; split; [nodes U G; sub U G|dis U]|outside G].
Lemma rb_insert_ok : forall fuel z t t' h, (length z < fuel)%nat -> zst h z t -> t <> Leaf -> insert_color t z = Some t' ->
  exists h', rb_insert fuel (ptr t) (up z 0) h = Done h' /\ stored h' t' /\ forall a, timesz a z + times a t = 0 -> at_ h' a = at_ h a.
Proof.
  induction fuel as [|fuel IH]; intros z t t' h Lf Z0 NL I; [lia|]. destruct z as [|[[[sp cp] xp] op] z1].
  - destruct Z0 as (Rt & Hz & Ht & U). cbn in I. injection I as <-. destruct t as [|c l x r]; [congruence|]. cbn [rb_insert up ptr]. cbn [up] in Ht.
    change (0 =? 0) with true. cbn iota. destruct Ht as (P & C & D & E). exec U. eexists. split; [reflexivity|]. split.
    + split; [exact Rt|]. cbn [at_ recolor holds]. split; [|exact U]. split; [exact P|]. split; [look U|]. split; frame U.
    + intros a Ha. cbn [at_]. apply upd_ne. apply not_eq_sym, one_ne. rewrite times_node in Ha. cbn [timesz] in Ha. nn2. lia.
  - pose proof Z0 as (Rt & Hz & Ht & U). cbn [rb_insert up]. destruct Hz as (Pp & Cp & Do & Hz1). rewrite (proj2 (Z.eqb_neq xp 0) (proj1 Pp)).
    assert (U4 : up z1 0 mod 4 = 0) by four.
    rewrite (ld_ok _ _ _ Cp). cbn [seq].
    assert (Epc : pc (cellz (up z1 0 + bit cp) sp (ptr t) (ptr op)) = up z1 0 + bit cp) by (destruct sp; reflexivity). rewrite Epc, black_bit by exact U4.
    destruct cp.
    2: { cbn iota. cbn [insert_color] in I. injection I as <-. exists h. split; [reflexivity|]. split; [apply (proj2 (stored_plug _ _ _) Z0)|auto]. }
    cbn [bit] in *. rewrite Z.add_0_r in *. cbn iota. cbn [insert_color] in I. destruct z1 as [|[[[sg cg] xg] u] z2]; [discriminate|].
    cbn [up holdz rootp length] in *. destruct Hz1 as (Pg & Cg & Du & Hz2). rewrite (ld_ok _ _ _ Cg). cbn [seq].
    assert (Ng : ptr u <> xp) by (apply ptr_ne; [dis U|apply Pp]).
    assert (Hp : holds (at_ h) xg (mk sp Red xp t op)) by (apply holds_mk; cbn [bit]; rewrite Z.add_0_r; auto).
    destruct (is_red u) eqn:Ru.
    + destruct u as [|[|] ul xu ur]; try discriminate. cbn [recolor] in I. destruct Du as (Pu & Cu & Dul & Dur). cbn [ptr] in *.
      assert (G : exists h1, rb_set_parent_color xu xg RB_BLACK h = Done h1 /\ exists h2, rb_set_parent_color xp xg RB_BLACK h1 = Done h2 /\
        exists cn, ld xg h2 = Done cn /\ parent_of (pc cn) = up z2 0 /\ exists h3, rb_set_parent_color xg (up z2 0) RB_RED h2 = Done h3 /\
        zst h3 z2 (mk sg Red xg (mk sp Black xp t op) (Node Black ul xu ur)) /\ forall a, timesz a ((sp, Red, xp, op) :: (sg, cg, xg, Node Red ul xu ur) :: z2) + times a t = 0 -> at_ h3 a = at_ h a).
      { eexists. split; [exec U; reflexivity|]. eexists. split; [exec U; reflexivity|]. eexists. split; [apply ld_ok; look U|].
        split; [destruct sg; red1; apply parent_bit; four|]. eexists. split; [exec U; reflexivity|]. split.
        - split; [rewrite ptr_mk; exact Rt|]. rewrite ptr_mk. cbn [at_]. split; [frame U|]. split; [|intros a; generalize (U a); clear; count; nn2; lia].
          apply holds_mk. split; [exact Pg|]. rewrite ptr_mk. split; [destruct sg; look U|]. split.
          + apply holds_mk. split; [exact Pp|]. split; [destruct sp; look U|]. split; frame U.
          + cbn [holds]. split; [exact Pu|]. split; [look U|]. split; frame U.
        - intros a. cbn [at_]. count. intros Ha. rewrite !upd_ne; [reflexivity|..]; apply not_eq_sym, one_ne; nn2; lia. }
      destruct G as (h1 & G1 & h2 & G2 & cn & G3 & G4 & h3 & G5 & Z3 & Fr).
      destruct (IH z2 _ t' h3 ltac:(lia) Z3 ltac:(destruct sg; discriminate) I) as (h' & E1 & E2 & E3).
      exists h'. rewrite ptr_mk in E1.
      assert (R1 : red_there xu h = Done true) by (change xu with (ptr (Node Red ul xu ur)); rewrite (red_there_ok _ xg); [reflexivity|four|cbn [holds]; auto]).
      split.
      { destruct sg; cbn [cellz pc lft rgt]; [rewrite (proj2 (Z.eqb_neq xp xu)) by congruence|rewrite Z.eqb_refl]; cbn [negb]; cbv zeta;
          rewrite R1; cbn [seq]; rewrite G1; cbn [seq]; rewrite G2; cbn [seq]; rewrite G3; cbn [seq]; rewrite G4; cbv zeta; rewrite G5; cbn [seq]; exact E1. }
      split; [exact E2|]. intros a Ha. rewrite E3; [apply Fr, Ha|]. revert Ha. count. intros Ha. nn2. lia.
    + assert (R1 : red_there (ptr u) h = Done false) by (rewrite (red_there_ok u xg); [rewrite Ru; reflexivity|four|exact Du]).
      assert (Nt : ptr t <> 0) by (destruct t as [|? ? ? ?]; [congruence|apply Ht]).
      assert (No : ptr t <> ptr op).
      { intros E. destruct op as [|co lo xo ro]; cbn [ptr] in E; [congruence|]. destruct t as [|ct lt xt rt]; [congruence|]. cbn [ptr] in E. subst xt.
        generalize (U xo). clear. count. nn2. lia. }
      destruct sg, sp; cbn [cellz pc lft rgt]; cbv zeta; [rewrite (proj2 (Z.eqb_neq xp (ptr u))) by congruence|rewrite (proj2 (Z.eqb_neq xp (ptr u))) by congruence|rewrite Z.eqb_refl|rewrite Z.eqb_refl];
        cbn [negb]; rewrite R1; cbn [seq].
      * injection I as <-. rewrite (proj2 (Z.eqb_neq (ptr t) (ptr op))) by congruence. exec U. rot U cg xg xp z2.
        fin U F G.
      * destruct t as [|cn nl xn nr]; [discriminate|]. injection I as <-. cbn [ptr holds] in *. destruct Ht as (Pn & Cn & Dn1 & Dn2).
        rewrite Z.eqb_refl. exec U. rot U cg xg xn z2. fin U F G.
      * destruct t as [|cn nl xn nr]; [discriminate|]. injection I as <-. cbn [ptr holds] in *. destruct Ht as (Pn & Cn & Dn1 & Dn2).
        rewrite Z.eqb_refl. exec U. rot U cg xg xn z2. fin U F G.
      * injection I as <-. rewrite (proj2 (Z.eqb_neq (ptr t) (ptr op))) by congruence. exec U. rot U cg xg xp z2. fin U F G.
Qed.

(** * Erasing *)
Definition colour (t : tree Z) : color := match t with Leaf => Black | Node c _ _ _ => c end.
Lemma recolor_colour t : recolor (colour t) t = t.
Proof. destruct t; reflexivity. Qed.
Lemma rp_same m t q p : holds m q t -> (forall a, times a t <= 1) -> holds (rp m t p (colour t)) p t.
Proof. intros H U. pose proof (rp_holds m t q p (colour t) H U) as E. rewrite recolor_colour in E. exact E. Qed.
Lemma set_parent_ok a p q k l r h : p mod 4 = 0 -> q mod 4 = 0 -> at_ h a = Some (Cell (q + bit k) l r) ->
  rb_set_parent a p h = Done (Heap (root h) (upd (at_ h) a (Some (Cell (p + bit k) l r)))).
Proof.
  intros P Q H. unfold rb_set_parent. rewrite (ld_ok _ _ _ H). cbn [seq pc]. rewrite land1_bit by exact Q. rewrite Z.lor_comm, lor_bit by exact P.
  rewrite (set_pc_ok _ _ _ _ H). reflexivity.
Qed.
Lemma opt_sp_ok t p q h : p mod 4 = 0 -> q mod 4 = 0 -> holds (at_ h) q t ->
  (if ptr t =? 0 then Done h else rb_set_parent (ptr t) p h) = Done (Heap (root h) (rp (at_ h) t p (colour t))).
Proof.
  intros P Q H. destruct t as [|c l x r]; cbn [ptr rp]; [destruct h; reflexivity|]. destruct H as ((N & _) & B & _).
  apply Z.eqb_neq in N. rewrite N. rewrite (set_parent_ok _ _ _ _ _ _ _ P Q B). reflexivity.
Qed.
Ltac frame2 U := repeat first [eassumption | eapply holds_upd; [dis U|] | eapply holdz_upd; [dis U|] | eapply holds_rp; [dis U|] | eapply holdz_rp; [dis U|] | eapply rp_same; [|dis U] | eapply rp_holds; [|dis U]].
Ltac sub2 U G := eapply holds_ext; [|let a := fresh in let Ha := fresh in intros a Ha; apply G; generalize (U a); revert Ha; clear; count; nn2; lia]; frame2 U.
Ltac fin2 U F G := eexists; split; [reflexivity|]; split;
  [split; [reflexivity|]; cbn [at_ ptr]; split; [exact F|]; split; [nodes U G; sub2 U G|dis U]|outside G].
Lemma erase_tail_l again t cp xp s z h res : zst h ((L, cp, xp, s) :: z) t -> erase_tail L t cp xp s = Some res ->
  match res with
  | inl p => exists h', erase_left again xp (ptr s) h = Done h' /\ zst h' z p /\ forall a, timesz a ((L, cp, xp, s) :: z) + times a t = 0 -> at_ h' a = at_ h a
  | inr p => ptr p = xp /\ exists h', erase_left again xp (ptr s) h = (if up z 0 =? 0 then Done h' else again xp (up z 0) h') /\ zst h' z p /\
               forall a, timesz a ((L, cp, xp, s) :: z) + times a t = 0 -> at_ h' a = at_ h a
  end.
Proof.
  intros (Rt & (Pp & Cp & Ds & Hz) & Ht & U) E. cbn [rootp] in Rt. assert (U4 : up z 0 mod 4 = 0) by four. unfold erase_left.
  destruct s as [|cs sl xs sr]; [discriminate|]. cbn [ptr holds cellz up] in *. destruct Ds as (Ps & Cs & Dl & Dr).
  rewrite (ld_ok _ _ _ Cs). red1. rewrite (red_there_ok sr xs) by four. red1.
  cbn [erase_tail] in E. destruct (is_red sr) eqn:R1; cbn [negb] in E.
  - injection E as <-. red1. destruct sr as [|[|] srl xsr srr]; try discriminate. destruct Dr as (Psr & Csr & Dr1 & Dr2). cbn [ptr recolor mk] in *.
    exec U. erewrite (opt_sp_ok sl xp xs) by (first [four|cbn [at_]; frame U]). exec U. rot U cp xp xs z. fin2 U F G.
  - rewrite (red_there_ok sl xs) by four. red1. destruct (is_red sl) eqn:R2; cbn [negb] in E; red1.
    + destruct sl as [|cn nl xn nr]; try discriminate. destruct Dl as (Pn & Cn & Dn1 & Dn2). injection E as <-. cbn [ptr recolor mk] in *.
      exec U. erewrite (opt_sp_ok nl xp xn) by (first [four|cbn [at_]; frame U]). exec U. rot U cp xp xn z. fin2 U F G.
    + exec U. rewrite black_bit by four. destruct cp; injection E as <-; red1.
      * unfold rb_set_black. exec U. change RB_BLACK with (bit Black). cbn [bit]. rewrite Z.add_0_r. change 1 with (bit Black). rewrite lor_bit by four. erewrite set_pc_ok by look U. red1. cbn [mk].
        eexists. split; [reflexivity|]. split.
        -- split; [exact Rt|]. cbn [at_ ptr]. split; [frame U|]. split; [|dis U]. repeat (apply hn; [assumption|cbn [ptr]; look U| |]); frame U.
        -- intros a. cbn [at_]. count. intros Ha. rewrite !upd_ne by (apply not_eq_sym, one_ne; nn2; lia). reflexivity.
      * split; [reflexivity|]. rewrite parent_bit by four. cbn [mk]. eexists. split; [reflexivity|]. split.
        -- split; [exact Rt|]. cbn [at_ ptr]. split; [frame U|]. split; [|dis U]. repeat (apply hn; [assumption|cbn [ptr]; look U| |]); frame U.
        -- intros a. cbn [at_]. count. intros Ha. rewrite !upd_ne by (apply not_eq_sym, one_ne; nn2; lia). reflexivity.
Qed.
Lemma erase_tail_r again t cp xp s z h res : zst h ((R, cp, xp, s) :: z) t -> erase_tail R t cp xp s = Some res ->
  match res with
  | inl p => exists h', erase_right again xp (ptr s) h = Done h' /\ zst h' z p /\ forall a, timesz a ((R, cp, xp, s) :: z) + times a t = 0 -> at_ h' a = at_ h a
  | inr p => ptr p = xp /\ exists h', erase_right again xp (ptr s) h = (if up z 0 =? 0 then Done h' else again xp (up z 0) h') /\ zst h' z p /\
               forall a, timesz a ((R, cp, xp, s) :: z) + times a t = 0 -> at_ h' a = at_ h a
  end.
Proof.
  intros (Rt & (Pp & Cp & Ds & Hz) & Ht & U) E. cbn [rootp] in Rt. assert (U4 : up z 0 mod 4 = 0) by four. unfold erase_right.
  destruct s as [|cs sl xs sr]; [discriminate|]. cbn [ptr holds cellz up] in *. destruct Ds as (Ps & Cs & Dl & Dr).
  rewrite (ld_ok _ _ _ Cs). red1. rewrite (red_there_ok sl xs) by four. red1.
  cbn [erase_tail] in E. destruct (is_red sl) eqn:R1; cbn [negb] in E.
  - injection E as <-. red1. destruct sl as [|[|] srl xsr srr]; try discriminate. destruct Dl as (Psr & Csr & Dr1 & Dr2). cbn [ptr recolor mk] in *.
    exec U. erewrite (opt_sp_ok sr xp xs) by (first [four|cbn [at_]; frame U]). exec U. rot U cp xp xs z. fin2 U F G.
  - rewrite (red_there_ok sr xs) by four. red1. destruct (is_red sr) eqn:R2; cbn [negb] in E; red1.
    + destruct sr as [|cn nl xn nr]; try discriminate. destruct Dr as (Pn & Cn & Dn1 & Dn2). injection E as <-. cbn [ptr recolor mk] in *.
      exec U. erewrite (opt_sp_ok nr xp xn) by (first [four|cbn [at_]; frame U]). exec U. rot U cp xp xn z. fin2 U F G.
    + exec U. rewrite black_bit by four. destruct cp; injection E as <-; red1.
      * unfold rb_set_black. exec U. change RB_BLACK with (bit Black). cbn [bit]. rewrite Z.add_0_r. change 1 with (bit Black). rewrite lor_bit by four. erewrite set_pc_ok by look U. red1. cbn [mk].
        eexists. split; [reflexivity|]. split.
        -- split; [exact Rt|]. cbn [at_ ptr]. split; [frame U|]. split; [|dis U]. repeat (apply hn; [assumption|cbn [ptr]; look U| |]); frame U.
        -- intros a. cbn [at_]. count. intros Ha. rewrite !upd_ne by (apply not_eq_sym, one_ne; nn2; lia). reflexivity.
      * split; [reflexivity|]. rewrite parent_bit by four. cbn [mk]. eexists. split; [reflexivity|]. split.
        -- split; [exact Rt|]. cbn [at_ ptr]. split; [frame U|]. split; [|dis U]. repeat (apply hn; [assumption|cbn [ptr]; look U| |]); frame U.
        -- intros a. cbn [at_]. count. intros Ha. rewrite !upd_ne by (apply not_eq_sym, one_ne; nn2; lia). reflexivity.
Qed.

Lemma rb_erase_color_ok : forall fuel z t t' h, z <> [] -> (length z < fuel)%nat -> zst h z t -> erase_color t z = Some t' ->
  exists h', rb_erase_color fuel (ptr t) (up z 0) h = Done h' /\ stored h' t' /\ forall a, timesz a z + times a t = 0 -> at_ h' a = at_ h a.
Proof.
  induction fuel as [|fuel IH]; intros z t t' h NZ Lf Z0 I; [lia|]. destruct z as [|[[[sd cp] xp] s] z]; [congruence|]. clear NZ.
  pose proof Z0 as (Rt & (Pp & Cp & Ds & Hz) & Ht & U). cbn [rootp up] in *. assert (U4 : up z 0 mod 4 = 0) by four.
  assert (NS : s <> Leaf) by (intros ->; cbn [erase_color erase_tail] in I; discriminate).
  destruct s as [|cs sl xs sr]; [congruence|]. assert (Hs := Ds). cbn [holds] in Ds. destruct Ds as (Ps & Cs & Dl & Dr). cbn [ptr] in *.
  assert (Nts : ptr t <> xs).
  { intros E. destruct t as [|ct lt xt rt]; cbn [ptr] in E; [destruct Ps; congruence|]. subst xt. generalize (U xs). clear. count. nn2. lia. }
  assert (Tail : forall res h1 z1 s1 c1, zst h1 ((sd, c1, xp, s1) :: z1) t -> erase_tail sd t c1 xp s1 = Some res ->
     match res with inl p => plug z1 p = t' | inr p => erase_color p z1 = Some t' /\ (length z1 < fuel)%nat end ->
     exists h', match sd with L => erase_left | R => erase_right end (rb_erase_color fuel) xp (ptr s1) h1 = Done h' /\ stored h' t' /\
       forall a, timesz a ((sd, c1, xp, s1) :: z1) + times a t = 0 -> at_ h' a = at_ h1 a).
  { intros res h1 z1 s1 c1 Z1 E1 T1. 
    assert (K : match res with
      | inl p => exists h', match sd with L => erase_left | R => erase_right end (rb_erase_color fuel) xp (ptr s1) h1 = Done h' /\ zst h' z1 p /\ forall a, timesz a ((sd, c1, xp, s1) :: z1) + times a t = 0 -> at_ h' a = at_ h1 a
      | inr p => ptr p = xp /\ exists h', match sd with L => erase_left | R => erase_right end (rb_erase_color fuel) xp (ptr s1) h1 = (if up z1 0 =? 0 then Done h' else rb_erase_color fuel xp (up z1 0) h') /\ zst h' z1 p /\
               forall a, timesz a ((sd, c1, xp, s1) :: z1) + times a t = 0 -> at_ h' a = at_ h1 a end)
      by (destruct sd; [apply erase_tail_l|apply erase_tail_r]; assumption).
    destruct res as [p|p].
    - destruct K as (h' & A & B & C). exists h'. split; [exact A|]. split; [|exact C]. rewrite <- T1. apply stored_plug, B.
    - destruct T1 as [T1 L1]. destruct K as (Ep & h' & A & B & C). destruct z1 as [|f z1].
      + cbn [up] in A. change (0 =? 0) with true in A. cbn iota in A. exists h'. split; [exact A|]. split; [|exact C]. cbn in T1. injection T1 as <-. apply (proj2 (stored_plug h' [] p)), B.
      + destruct (IH (f :: z1) p t' h' ltac:(discriminate) L1 B T1) as (h2 & D & E & F). rewrite Ep in D. exists h2.
        assert (N : (up (f :: z1) 0 =? 0) = false). { destruct B as (_ & B & _). destruct f as [[[sf cf] xf] of_]. cbn [up]. eapply up0; exact B. }
        rewrite N in A. split; [rewrite A; exact D|]. split; [exact E|]. intros a Ha. rewrite F; [apply C, Ha|]. 
        assert (T : forall a, times a p = one xp a + times a s1 + times a t).
        { clear - E1. intros a. unfold erase_tail in E1. destruct s1 as [|k sl xs sr]; [discriminate|].
          destruct sd; [destruct (is_red sr)|destruct (is_red sl)]; cbn [negb] in E1; try discriminate;
          [destruct (is_red sl)|destruct (is_red sr)]; cbn [negb] in E1;
          [destruct sl; discriminate| |destruct sr; discriminate|]; destruct c1; try discriminate; injection E1 as <-; count; lia. }
        rewrite T. revert Ha. count. lia. }
  cbn [rb_erase_color]. rewrite (ld_ok _ _ _ Cp). red1.
  destruct sd; red1; [rewrite (proj2 (Z.eqb_neq _ _) Nts)|rewrite Z.eqb_refl]; red1; rewrite (ld_ok _ _ _ Cs); red1; rewrite black_bit by four.
  - destruct cs; red1.
    + cbn [erase_color] in I. destruct sl as [|cn nl xn nr]; [discriminate|]. destruct Dl as (Pn & Cn & Dn1 & Dn2). cbn [ptr recolor] in *.
      exec U. rot U cp xp xs z. red1.
      destruct (erase_tail L t Red xp (Node Black nl xn nr)) as [[p|p]|] eqn:E1; try discriminate. injection I as I.
      edestruct (Tail (inl p) {| root := rootp z xs; at_ := m' |} ((L, cp, xs, sr) :: z) (Node Black nl xn nr) Red) as (h' & A & B & C); [|exact E1|exact I|].
      * split; [reflexivity|]. cbn [at_ ptr up holdz cellz]. split; [|split; [sub2 U G|dis U]].
        split; [exact Pp|]. split; [rewrite G by dis U; look U|]. split; [nodes U G; sub2 U G|]. split; [exact Ps|]. split; [rewrite G by dis U; look U|]. split; [sub2 U G|exact F].
      * cbn [ptr] in A. rewrite A. exists h'. split; [reflexivity|]. split; [exact B|]. intros a Ha. rewrite C by (revert Ha; clear; count; nn2; lia).
        revert Ha. revert a. outside G.
    + assert (E2 : exists res, erase_tail L t cp xp (Node Black sl xs sr) = Some res /\ match res with inl p => plug z p = t' | inr p => erase_color p z = Some t' /\ (length z < fuel)%nat end).
      { cbn [erase_color] in I. destruct (erase_tail L t cp xp (Node Black sl xs sr)) as [[p|p]|]; [eexists; split; [reflexivity|]; congruence|eexists; split; [reflexivity|]; split; [exact I|cbn [length] in Lf; lia]|discriminate]. }
      destruct E2 as (res & E2 & E3). apply (Tail res h z (Node Black sl xs sr) cp); auto.
  - destruct cs; red1.
    + cbn [erase_color] in I. destruct sr as [|cn nl xn nr]; [discriminate|]. destruct Dr as (Pn & Cn & Dn1 & Dn2). cbn [ptr recolor] in *.
      exec U. rot U cp xp xs z. red1.
      destruct (erase_tail R t Red xp (Node Black nl xn nr)) as [[p|p]|] eqn:E1; try discriminate. injection I as I.
      edestruct (Tail (inl p) {| root := rootp z xs; at_ := m' |} ((R, cp, xs, sl) :: z) (Node Black nl xn nr) Red) as (h' & A & B & C); [|exact E1|exact I|].
      * split; [reflexivity|]. cbn [at_ ptr up holdz cellz]. split; [|split; [sub2 U G|dis U]].
        split; [exact Pp|]. split; [rewrite G by dis U; look U|]. split; [nodes U G; sub2 U G|]. split; [exact Ps|]. split; [rewrite G by dis U; look U|]. split; [sub2 U G|exact F].
      * cbn [ptr] in A. rewrite A. exists h'. split; [reflexivity|]. split; [exact B|]. intros a Ha. rewrite C by (revert Ha; clear; count; nn2; lia).
        revert Ha. revert a. outside G.
    + assert (E2 : exists res, erase_tail R t cp xp (Node Black sl xs sr) = Some res /\ match res with inl p => plug z p = t' | inr p => erase_color p z = Some t' /\ (length z < fuel)%nat end).
      { cbn [erase_color] in I. destruct (erase_tail R t cp xp (Node Black sl xs sr)) as [[p|p]|]; [eexists; split; [reflexivity|]; congruence|eexists; split; [reflexivity|]; split; [exact I|cbn [length] in Lf; lia]|discriminate]. }
      destruct E2 as (res & E2 & E3). apply (Tail res h z (Node Black sl xs sr) cp); auto.
Qed.
