(** C27: the red-black tree is a sorted, balanced map.  See DESIGN.md. *)
From Coq Require Import ZArith List Bool Lia Sorting.Sorted.
From Verif Require Import Base BaseProofs RbModel RbSpec RbProofs.
Import ListNotations.
Open Scope Z_scope.

(** Any sequence of insertions and deletions, by any comparison that orders the
    keys: no null pointer is followed, the tree holds exactly the elements of the
    set, in order, a search finds an element exactly when it is there, and the
    depth is logarithmic. *)
Theorem C27_tree_is_map (A K : Type) (key : A -> K) (kcmp : K -> K -> Z) (keqb : K -> K -> bool)
  (dom : K -> Prop) :
  orders kcmp dom -> (forall a b, keqb a b = true <-> a = b) ->
  forall ops : list (op A K), Forall (fun o => dom (op_key key o)) ops ->
  let set := fold_left (set_step key keqb) ops [] in
  exists t, fold_left (tree_step key kcmp) ops (Some Leaf) = Some t
    /\ (forall y, In y (elements t) <-> In y set)
    /\ StronglySorted (fun a b => kcmp (key b) (key a) < 0) (elements t)
    /\ (forall k y, dom k -> (search (cmp key kcmp) t k = Some y <-> In y set /\ key y = k))
    /\ depth t <= 2 * Z.log2 (1 + zlen (elements t)).
Proof.
  intros Ho He ops Hd set.
  destruct (run_ops A K key kcmp dom Ho keqb He ops Leaf [] (good_leaf A K key kcmp dom) Hd) as (t & H1 & H2 & H3).
  { cbn. tauto. }
  exists t. split; [exact H1|]. split; [intros y; symmetry; apply H3|].
  split; [exact (proj1 (proj2 H2))|]. split.
  - intros k y Hk. rewrite (search_good A K key kcmp dom Ho t k H2 Hk y). rewrite <- (H3 y). reflexivity.
  - destruct H2 as [[N HN] _]. eapply depth_log; eauto.
Qed.
Print Assumptions C27_tree_is_map.

(** Inserting an existing key returns the node there and leaves the tree as it is;
    a new key returns NULL. *)
Theorem C27_insert_result (A K : Type) (key : A -> K) (kcmp : K -> K -> Z) (keqb : K -> K -> bool)
  (dom : K -> Prop) :
  orders kcmp dom -> (forall a b, keqb a b = true <-> a = b) ->
  forall (ops : list (op A K)) t x, Forall (fun o => dom (op_key key o)) ops -> dom (key x) ->
  fold_left (tree_step key kcmp) ops (Some Leaf) = Some t ->
  (forall y, In y (elements t) -> key y = key x ->
     insert (cmp key kcmp) t x (key x) = Some (t, Some y))
  /\ ((forall y, In y (elements t) -> key y <> key x) ->
     exists t', insert (cmp key kcmp) t x (key x) = Some (t', None)
       /\ exists p q, elements t = p ++ q /\ elements t' = p ++ x :: q).
Proof.
  intros Ho He ops t x Hd Hx Ht.
  destruct (run_ops A K key kcmp dom Ho keqb He ops Leaf [] (good_leaf A K key kcmp dom) Hd) as (t' & H1 & H2 & H3).
  { cbn. tauto. }
  assert (t' = t) as -> by congruence.
  pose proof (insert_good A K key kcmp dom Ho t x H2 Hx) as I.
  pose proof (search_good A K key kcmp dom Ho t (key x) H2 Hx) as Q.
  split.
  - intros y Hy Ey. rewrite (proj2 (Q y) (conj Hy Ey)) in I. exact I.
  - intros Hn. destruct (search (cmp key kcmp) t (key x)) as [y|].
    + destruct (proj1 (Q y) eq_refl) as [Y1 Y2]. destruct (Hn y Y1 Y2).
    + destruct I as (t' & I1 & _ & I2). eauto.
Qed.
Print Assumptions C27_insert_result.

(** rb_first, rb_last, rb_next and rb_prev walk the elements in order. *)
Theorem C27_walk (A : Type) (t : tree A) :
  first_node t = hd_error (elements t)
  /\ last_node t = hd_error (rev (elements t))
  /\ forall c l x r z, plug z (Node c l x r) = t ->
     exists p q, elements t = p ++ x :: q
       /\ next_node (Node c l x r) z = hd_error q
       /\ prev_node (Node c l x r) z = hd_error (rev p).
Proof.
  split; [apply first_node_spec|]. split; [apply last_node_spec|].
  intros c l x r z <-. exists (before _ z ++ elements l), (elements r ++ after _ z).
  split; [rewrite plug_elements; cbn; rewrite <- !app_assoc; reflexivity|].
  split; [apply next_node_spec|apply prev_node_spec].
Qed.
Print Assumptions C27_walk.

(** The comparisons of the code order their keys: build ids by strcmp
    (cmp_buildid, kpatch_storage.c:152-162) ... *)
Theorem C27_strcmp_orders : orders strcmp str_ok.
Proof.
  constructor.
  - intros a b Ha Hb. apply strcmp_eq; auto.
  - intros a b _ _. rewrite (strcmp_antisym a b). lia.
  - intros a b c. apply strcmp_trans.
Qed.
Print Assumptions C27_strcmp_orders.

(** ... and start lines by cblock_start_cmp (kpatch_parse.c:208-213). *)
Theorem C27_start_cmp_orders : orders start_cmp (fun _ => True).
Proof.
  unfold start_cmp. constructor; intros.
  - destruct (Z.eqb_spec a b); [tauto|]. destruct (b <? a); split; lia.
  - destruct (Z.eqb_spec a b), (Z.eqb_spec b a), (Z.ltb_spec b a), (Z.ltb_spec a b); lia.
  - destruct (Z.eqb_spec a b), (Z.eqb_spec b c), (Z.eqb_spec a c), (Z.ltb_spec b a), (Z.ltb_spec c b),
      (Z.ltb_spec c a); lia.
Qed.
Print Assumptions C27_start_cmp_orders.

(** The hypotheses hold for a run with rotations, a duplicate and deletions of an
    inner node, a leaf and the root. *)
Example C27_case :
  exists t, fold_left (tree_step (fun x : Z * Z => fst x) start_cmp)
    [Insert (1, 10); Insert (2, 20); Insert (3, 30); Insert (4, 40); Insert (5, 50); Insert (6, 60);
     Insert (3, 99); Erase 4; Erase 1; Insert (7, 70); Erase 9; Erase 2] (Some Leaf) = Some t
  /\ elements t = [(3, 30); (5, 50); (6, 60); (7, 70)]
  /\ search (cmp (fun x : Z * Z => fst x) start_cmp) t 3 = Some (3, 30)
  /\ search (cmp (fun x : Z * Z => fst x) start_cmp) t 4 = None
  /\ Forall (fun o : op (Z * Z) Z => True) [Insert (1, 10); Erase 4].
Proof.
  eexists. split; [vm_compute; reflexivity|]. split; [vm_compute; reflexivity|].
  split; [vm_compute; reflexivity|]. split; [vm_compute; reflexivity|]. repeat constructor.
Qed.
