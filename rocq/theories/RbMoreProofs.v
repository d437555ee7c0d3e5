From Coq Require Import Sorting.Sorted Permutation.
From Verif Require Import Base RbModel RbSpec RbProofs RbHeapModel RbHeapSpec RbHeapProofs RbHeapProofs2 RbHeapProofs3 RbMoreModel RbMoreSpec.

(** * Renaming *)
Lemma swap_v v n : swap v n v = n.
Proof. unfold swap. rewrite Z.eqb_refl. reflexivity. Qed.
Lemma swap_ne v n a : a <> v -> swap v n a = a.
Proof. unfold swap. intros H. apply Z.eqb_neq in H. rewrite H. reflexivity. Qed.
Lemma renamed_id v n t : times v t = 0 -> renamed v n t = t.
Proof.
  induction t as [|c l IHl x r IHr]; cbn [renamed]; [reflexivity|]. rewrite times_node. intros H. nn2.
  rewrite IHl, IHr by lia. rewrite swap_ne; [reflexivity|]. apply one_ne. lia.
Qed.
Lemma renamed_elements v n t : elements (renamed v n t) = map (swap v n) (elements t).
Proof. induction t as [|c l IHl x r IHr]; cbn [renamed elements map]; [reflexivity|]. rewrite map_app, IHl, IHr. reflexivity. Qed.
Lemma renamed_size v n t : size (renamed v n t) = size t.
Proof. rewrite !size_elements, renamed_elements, map_length. reflexivity. Qed.
Lemma renamed_mk v n s c x t o : renamed v n (mk s c x t o) = mk s c (swap v n x) (renamed v n t) (renamed v n o).
Proof. destruct s; reflexivity. Qed.
Lemma renamed_plug v n : forall z t, timesz v z = 0 -> renamed v n (plug z t) = plug z (renamed v n t).
Proof.
  induction z as [|[[[s c] x] o] z IH]; intros t H; cbn [plug timesz] in *; [reflexivity|]. nn2. rewrite IH by lia. rewrite renamed_mk.
  rewrite (renamed_id v n o) by lia. rewrite swap_ne; [reflexivity|]. apply one_ne. lia.
Qed.
Lemma renamed_rb v n t : forall c m, rb Z c m t -> rb Z c m (renamed v n t).
Proof. intros c m H. induction H; cbn [renamed]; econstructor; eauto. Qed.

(** * Replacing *)
Lemma replace_ok h c l v r z n : zst h z (Node c l v r) -> place n -> at_ h n <> None -> times n (plug z (Node c l v r)) = 0 ->
  exists h', rb_replace_node v n h = Done h' /\ zst h' z (Node c l n r) /\ at_ h' v = at_ h v /\
    forall a, a <> n -> times a (plug z (Node c l v r)) = 0 -> at_ h' a = at_ h a.
Proof.
  intros (Rt & Hz & (P & C & D1 & D2) & U0) Pn An Tn. cbn [ptr] in *.
  assert (U : forall a, timesz a z + (one v a + times a l + times a r) + one n a <= 1).
  { intros a. specialize (U0 a). rewrite times_node in U0. revert Tn. count. intros Tn. destruct (Z.eq_dec n a) as [<-|Na]; [rewrite one_refl; nn2; lia|rewrite (ne_one n a) by exact Na; lia]. }
  pose proof (up4 _ _ _ Hz) as F. pose proof (place4 _ P) as Fv. pose proof (place4 _ Pn) as Fn.
  unfold rb_replace_node. rewrite (ld_ok _ _ _ C). red1. rewrite parent_bit by exact F.
  destruct (at_ h n) as [cn|] eqn:En; [|congruence]. rewrite (ld_ok _ _ _ En). red1. unfold put.
  erewrite ld_ok by look U. red1. rewrite (opt_sp_ok l n v) by (first [exact Fn|exact Fv|cbn [at_]; frame2 U]). red1.
  erewrite ld_ok by look U. red1. rewrite (opt_sp_ok r n v) by (first [exact Fn|exact Fv|cbn [at_]; frame2 U]). red1.
  destruct (change_child_ok v n z (Heap (root h) (rp (rp (upd (at_ h) n (Some (Cell (up z 0 + bit c) (ptr l) (ptr r)))) l n (colour l)) r n (colour r)))) as (m' & Em & Hm & Gm);
    [cbn [at_]; frame2 U|dis U|dis U|exact (proj1 P)|cbn [root]; exact Rt|]. cbn [root at_] in *. rewrite Em. eexists. split; [reflexivity|]. split; [|split].
  - split; [reflexivity|]. split; [exact Hm|]. split.
    + split; [exact Pn|]. split; [cbn [at_]; rewrite Gm by (dis U); look U|].
      split; (eapply holds_ext; [|let a := fresh in let Ha := fresh in intros a Ha; apply Gm; generalize (U a); revert Ha; clear; count; nn2; lia]).
      * frame2 U.
      * frame2 U.
    + intros a. generalize (U a). clear. count. nn2. lia.
  - cbn [at_]. rewrite Gm by (dis U). look U.
  - intros a Na. cbn [at_]. count. intros Ha. rewrite Gm by (nn2; lia). rewrite !rp_ne by (nn2; lia). apply upd_ne, Na.
Qed.
Lemma replace_stored h t v n : stored h t -> In v (elements t) -> ~ In n (elements t) -> place n -> at_ h n <> None ->
  exists h', rb_replace_node v n h = Done h' /\ stored h' (renamed v n t) /\ at_ h' v = at_ h v /\
    forall a, a <> n -> ~ In a (elements t) -> at_ h' a = at_ h a.
Proof.
  intros S Iv In_ Pn An. assert (X : forall t z, 0 < times v t -> exists c l r z', plug z' (Node c l v r) = plug z t).
  { clear. induction t as [|c l IHl x r IHr]; intros z H; [rewrite times_leaf in H; lia|]. rewrite times_node in H. nn2.
    destruct (Z.eq_dec x v) as [->|Nx]; [eauto|]. rewrite (ne_one x v) in H by exact Nx.
    destruct (Z.ltb_spec 0 (times v l)) as [K|K]; [apply (IHl ((L, c, x, r) :: z) K)|apply (IHr ((R, c, x, l) :: z)); lia]. }
  destruct (X t [] (proj2 (times_in v t) Iv)) as (c & l & r & z & E). cbn [plug] in E. subst t.
  destruct (replace_ok h c l v r z n) as (h' & H1 & H2 & H3 & H4); [apply stored_plug, S|exact Pn|exact An|apply times_out, In_|].
  apply stored_plug in S. destruct S as (_ & _ & _ & U). pose proof (U v) as Uv. rewrite times_node, one_refl in Uv. nn2.
  exists h'. split; [exact H1|]. split; [|split; [exact H3|intros a Na Ia; apply H4; [exact Na|apply times_out, Ia]]].
  rewrite renamed_plug by lia. cbn [renamed]. rewrite swap_v, !renamed_id by lia. apply stored_plug, H2.
Qed.

(** * Postorder: what is above the node the walk is at.  A step up from a left child has the
    right subtree still to do. *)
Definition ups := list (color * Z * option (tree Z)).
Definition upq (z : ups) : Z := match z with [] => 0 | (_, x, _) :: _ => x end.
Fixpoint pendq (m : Z -> option cell) (hole : Z) (z : ups) : Prop :=
  match z with
  | [] => True
  | (c, x, Some o) :: z' => place x /\ m x = Some (Cell (upq z' + bit c) hole (ptr o)) /\ holds m x o /\ pendq m x z'
  | (c, x, None) :: z' => place x /\ (exists q, q <> hole /\ m x = Some (Cell (upq z' + bit c) q hole)) /\ pendq m x z'
  end.
Fixpoint live (a : Z) (z : ups) : Z :=
  match z with [] => 0 | (_, x, Some o) :: z' => one x a + times a o + live a z' | (_, x, None) :: z' => one x a + live a z' end.
Fixpoint rest (z : ups) : list Z :=
  match z with [] => [] | (_, x, Some o) :: z' => post o ++ x :: rest z' | (_, x, None) :: z' => x :: rest z' end.
Lemma live_nn a z : 0 <= live a z.
Proof. induction z as [|[[c x] [o|]] z IH]; cbn [live]; [lia| |]; nn2; lia. Qed.
Lemma post_perm t : Permutation (post t) (elements t).
Proof.
  induction t as [|c l IHl x r IHr]; cbn [post elements]; [constructor|]. apply Permutation_app; [exact IHl|].
  eapply Permutation_trans; [apply Permutation_app_comm|]. cbn [app]. constructor. exact IHr.
Qed.
Lemma post_size t : length (post t) = size t.
Proof. rewrite size_elements. apply Permutation_length, post_perm. Qed.
Lemma live_rest a z : 0 < live a z <-> In a (rest z).
Proof.
  induction z as [|[[c x] [o|]] z IH]; cbn [live rest]; [split; [lia|intros []]| |]; pose proof (live_nn a z).
  - rewrite in_app_iff. cbn [In]. rewrite <- IH. assert (E : In a (post o) <-> 0 < times a o).
    { rewrite times_in. split; apply Permutation_in; [apply post_perm|apply Permutation_sym, post_perm]. }
    rewrite E. nn2. unfold one in *. destruct (Z.eqb_spec x a) as [E0|E0]; split; intros K; [auto|lia| |destruct K as [K|[K|K]]; [lia|congruence|lia]].
    destruct (Z.ltb_spec 0 (times a o)); [auto|right; right; lia].
  - cbn [In]. rewrite <- IH. unfold one. destruct (Z.eqb_spec x a) as [E0|E0]; split; intros K; [auto|lia|right; lia|destruct K as [K|K]; [congruence|lia]].
Qed.
Lemma pendq_ext m m' : forall z hole, pendq m hole z -> (forall a, 0 < live a z -> m' a = m a) -> pendq m' hole z.
Proof.
  induction z as [|[[c x] [o|]] z IH]; intros hole H E; cbn [pendq live] in *; [exact I| |]; pose proof (live_nn x z).
  - destruct H as (A & B & C & D). split; [exact A|]. split; [rewrite E; [exact B|rewrite one_refl; nn2; lia]|].
    split; [apply (holds_ext m)|apply IH]; auto; intros a Ha; apply E; pose proof (live_nn a z); nn2; lia.
  - destruct H as (A & (q & Nq & B) & D). split; [exact A|]. split; [exists q; split; [exact Nq|rewrite E; [exact B|rewrite one_refl; lia]]|].
    apply IH; auto. intros a Ha. apply E. nn2. lia.
Qed.
Lemma upq4 m hole z : pendq m hole z -> upq z mod 4 = 0.
Proof. destruct z as [|[[c x] [o|]] z]; cbn; [reflexivity| |]; intros [[_ H] _]; exact H. Qed.
Lemma deepest_ok h : forall t fuel z, t <> Leaf -> (size t <= fuel)%nat -> pendq (at_ h) (ptr t) z -> holds (at_ h) (upq z) t ->
  exists x c z', rb_left_deepest_node fuel (ptr t) h = Done x /\ place x /\ at_ h x = Some (Cell (upq z' + bit c) 0 0) /\ pendq (at_ h) x z' /\
    x :: rest z' = post t ++ rest z /\ forall a, live a z' + one x a = live a z + times a t.
Proof.
  induction t as [|c l IHl x r IHr]; intros fuel z N Lf Hz H; [congruence|]. destruct H as (P & C & D1 & D2). cbn [size] in Lf. destruct fuel as [|fuel]; [lia|].
  cbn [rb_left_deepest_node ptr] in *. rewrite (ld_ok _ _ _ C). red1.
  destruct l as [|cl ll xl rl] eqn:El; [destruct r as [|cr lr xr rr] eqn:Er|].
  - cbn [ptr]. red1. exists x, c, z. repeat (split; [first [reflexivity|assumption]|]). intros a. count. lia.
  - cbn [ptr] in *. red1. pose proof D2 as (Pr & _). rewrite (proj2 (Z.eqb_neq _ _) (proj1 Pr)). red1.
    destruct (IHr fuel ((c, x, None) :: z)) as (y & cy & z' & A1 & A2 & A3 & A4 & A5 & A6); [discriminate|cbn [size] in *; lia| |exact D2|].
    + cbn [pendq]. split; [exact P|]. split; [exists 0; split; [apply not_eq_sym, (proj1 Pr)|exact C]|exact Hz].
    + exists y, cy, z'. repeat (split; [assumption|]). split.
      * rewrite A5. cbn [rest post app]. rewrite <- !app_assoc. reflexivity.
      * intros a. rewrite A6. cbn [live]. rewrite !times_node, times_leaf. lia.
  - cbn [ptr] in *. red1. pose proof D1 as (Pl & _). rewrite (proj2 (Z.eqb_neq _ _) (proj1 Pl)). red1.
    destruct (IHl fuel ((c, x, Some r) :: z)) as (y & cy & z' & A1 & A2 & A3 & A4 & A5 & A6); [discriminate|cbn [size] in *; lia| |exact D1|].
    + cbn [pendq]. auto.
    + exists y, cy, z'. repeat (split; [assumption|]). split.
      * rewrite A5. cbn [rest]. change (post (Node c (Node cl ll xl rl) x r)) with (post (Node cl ll xl rl) ++ post r ++ [x]). rewrite <- !app_assoc. reflexivity.
      * intros a. rewrite A6. cbn [live]. rewrite (times_node a c). lia.
Qed.
Lemma free_ok fuel : forall loop z x c a b h, (length (rest z) + 1 < loop)%nat -> (length (rest z) <= fuel)%nat -> place x -> at_ h x = Some (Cell (upq z + bit c) a b) ->
  pendq (at_ h) x z -> (forall v, live v z + one x v <= 1) ->
  exists h', free_from fuel loop x h = Done (x :: rest z, h') /\ root h' = root h /\ forall v, at_ h' v = if in_dec Z.eq_dec v (x :: rest z) then None else at_ h v.
Proof.
  induction loop as [|loop IH]; intros z x c a b h Ll Lf P C Hz U; [lia|]. cbn [free_from]. rewrite (proj2 (Z.eqb_neq _ _) (proj1 P)).
  unfold rb_next_postorder. rewrite (proj2 (Z.eqb_neq _ _) (proj1 P)), (ld_ok _ _ _ C). red1. rewrite parent_bit by (eapply upq4, Hz).
  assert (K : forall z' y cy a' b' t', y :: rest z' = rest z -> place y -> at_ h y = Some (Cell (upq z' + bit cy) a' b') -> pendq (at_ h) y z' -> (forall v, live v z' + one y v <= live v z) ->
    t' = Done y -> exists h', (do n <- t'; do (l, h0) <- free_from fuel loop n (drop x h); Done (x :: l, h0)) = Done (x :: rest z, h') /\ root h' = root h /\
      forall v, at_ h' v = if in_dec Z.eq_dec v (x :: rest z) then None else at_ h v).
  { intros z' y cy a' b' t' E Py Cy Hy Uy ->. assert (Nx : live x z' = 0 /\ y <> x).
    { pose proof (U x) as Ux. rewrite one_refl in Ux. specialize (Uy x). pose proof (live_nn x z'). nn2. split; [lia|apply one_ne; lia]. }
    destruct Nx as [Nx Nyx]. rewrite <- E in Ll, Lf. cbn [length] in Ll, Lf.
    destruct (IH z' y cy a' b' (drop x h)) as (h' & A1 & A2 & A3); [lia|lia|exact Py|cbn [at_ drop]; rewrite upd_ne by exact Nyx; exact Cy| | |].
    - apply (pendq_ext (at_ h)); [exact Hy|]. intros v Hv. cbn [at_ drop]. apply upd_ne. intros ->. lia.
    - intros v. specialize (Uy v). specialize (U v). nn2. lia.
    - exists h'. red1. rewrite A1. red1. rewrite E in *. split; [reflexivity|]. split; [exact A2|]. intros v. rewrite A3. cbn [drop at_].
      destruct (in_dec Z.eq_dec v (rest z)) as [I1|I1], (in_dec Z.eq_dec v (x :: rest z)) as [I2|I2]; try reflexivity.
      + exfalso. apply I2. right. exact I1.
      + destruct I2 as [->|I2]; [apply upd_eq|tauto].
      + apply upd_ne. intros ->. apply I2. left. reflexivity. }
  destruct z as [|[[cp p] [o|]] z]; cbn [upq rest live pendq length] in *.
  - red1. destruct loop as [|loop]; [lia|]. cbn [free_from]. red1. exists (drop x h). split; [reflexivity|]. split; [reflexivity|]. intros v. cbn [drop at_].
    destruct (in_dec Z.eq_dec v [x]) as [I1|I1]; [destruct I1 as [->|[]]; apply upd_eq|apply upd_ne; intros ->; apply I1; left; reflexivity].
  - destruct Hz as (Pp & Cp & Do & Hz). rewrite (proj2 (Z.eqb_neq _ _) (proj1 Pp)), (ld_ok _ _ _ Cp). red1. rewrite Z.eqb_refl. red1.
    destruct o as [|co lo xo ro] eqn:Eo.
    + cbn [ptr]. red1. apply (K z p cp x 0); [reflexivity|exact Pp|exact Cp|exact Hz|intros v; rewrite times_leaf; lia|reflexivity].
    + cbn [ptr] in *. pose proof Do as (Po & _). rewrite (proj2 (Z.eqb_neq _ _) (proj1 Po)). red1.
      destruct (deepest_ok h o fuel ((cp, p, None) :: z)) as (y & cy & z' & A1 & A2 & A3 & A4 & A5 & A6); [subst o; discriminate| | |subst o; exact Do|].
      * rewrite <- post_size, Eo. rewrite app_length in Lf. lia.
      * subst o. cbn [pendq ptr]. split; [exact Pp|]. split; [exists x; split; [|exact Cp]|exact Hz]. apply one_ne. pose proof (U xo) as Ux. rewrite times_node, one_refl in Ux. pose proof (live_nn xo z). nn2. lia.
      * subst o. apply (K z' y cy 0 0); [exact A5|exact A2|exact A3|exact A4| |exact A1]. intros v. rewrite A6. cbn [live]. lia.
  - destruct Hz as (Pp & (q & Nq & Cp) & Hz). rewrite (proj2 (Z.eqb_neq _ _) (proj1 Pp)), (ld_ok _ _ _ Cp). red1.
    rewrite (proj2 (Z.eqb_neq x q)) by congruence. red1. apply (K z p cp q x (Done p)); [reflexivity|exact Pp|exact Cp|exact Hz|intros v; lia|reflexivity].
Qed.
Lemma free_stored fuel h t : stored h t -> (S (size t) < fuel)%nat ->
  exists h', free_postorder fuel h = Done (post t, h') /\ root h' = root h /\ forall v, at_ h' v = if in_dec Z.eq_dec v (elements t) then None else at_ h v.
Proof.
  intros (Rt & H & U) Lf. unfold free_postorder, rb_first_postorder. rewrite Rt. destruct t as [|c l x r] eqn:Et.
  - red1. cbn [ptr]. red1. destruct fuel as [|fuel]; [lia|]. cbn [free_from]. red1. exists h. cbn [post elements]. auto.
  - cbn [ptr]. pose proof H as (P & _). rewrite (proj2 (Z.eqb_neq _ _) (proj1 P)). rewrite <- Et in *.
    destruct (deepest_ok h t fuel []) as (y & cy & z' & A1 & A2 & A3 & A4 & A5 & A6); [subst t; discriminate|lia|exact I|exact H|].
    cbn [rest] in A5. rewrite app_nil_r in A5. replace (ptr t) with x in A1 by (subst t; reflexivity). rewrite A1. red1. pose proof (post_size t) as Ps. rewrite <- A5 in Ps. cbn [length] in Ps.
    destruct (free_ok fuel fuel z' y cy 0 0 h) as (h' & B1 & B2 & B3); [lia|lia|exact A2|exact A3|exact A4|intros v; rewrite A6; cbn [live]; specialize (U v); lia|].
    exists h'. rewrite A5 in *. split; [exact B1|]. split; [rewrite B2, Rt, Et; reflexivity|]. intros v. rewrite B3.
    destruct (in_dec Z.eq_dec v (post t)) as [I1|I1], (in_dec Z.eq_dec v (elements t)) as [I2|I2]; try reflexivity; exfalso.
    + apply I2. apply (Permutation_in _ (post_perm t) I1).
    + apply I1. apply (Permutation_in _ (Permutation_sym (post_perm t)) I2).
Qed.

(** * Children before parents *)
Lemma earlier_app_l l l' a b : earlier l a b -> earlier (l ++ l') a b.
Proof. intros (l1 & l2 & l3 & ->). exists l1, l2, (l3 ++ l'). rewrite <- !app_assoc. cbn [app]. rewrite <- app_assoc. reflexivity. Qed.
Lemma earlier_app_r l l' a b : earlier l a b -> earlier (l' ++ l) a b.
Proof. intros (l1 & l2 & l3 & ->). exists (l' ++ l1), l2, l3. rewrite <- app_assoc. reflexivity. Qed.
Lemma earlier_last l a b : In a l -> earlier (l ++ [b]) a b.
Proof. intros I. destruct (in_split _ _ I) as (l1 & l2 & ->). exists l1, l2, []. rewrite <- app_assoc. reflexivity. Qed.
Lemma post_children h : forall t p a c, holds (at_ h) p t -> p mod 4 = 0 -> In a (elements t) -> at_ h a = Some c ->
  (a = ptr t /\ parent_of (pc c) = p) \/ earlier (post t) a (parent_of (pc c)).
Proof.
  assert (Q : forall t v, In v (elements t) -> In v (post t)) by (intros t v; apply Permutation_in, Permutation_sym, post_perm).
  induction t as [|k l IHl x r IHr]; intros p a c H Pm I C; [destruct I|]. destruct H as (P & B & D1 & D2). cbn [elements post ptr] in *.
  apply in_app_or in I. destruct I as [I|[<-|I]].
  - right. destruct (IHl x a c D1 (place4 _ P) I C) as [[E1 E2]|E]; [|apply earlier_app_l, E]. rewrite E2, app_assoc. apply earlier_last, in_or_app. left. apply Q, I.
  - left. split; [reflexivity|]. assert (c = Cell (p + bit k) (ptr l) (ptr r)) as -> by congruence. cbn [pc]. apply parent_bit, Pm.
  - right. destruct (IHr x a c D2 (place4 _ P) I C) as [[E1 E2]|E]; [|apply earlier_app_r, earlier_app_l, E]. rewrite E2, app_assoc. apply earlier_last, in_or_app. right. apply Q, I.
Qed.
