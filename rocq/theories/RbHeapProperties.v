(** C128: the pointers of the red-black tree. *)
From Coq Require Import Sorting.Sorted.
From Verif Require Import Base RbModel RbSpec RbProofs RbProperties RbHeapModel RbHeapSpec RbHeapProofs RbHeapProofs2 RbHeapProofs3.

(** * Walks *)
Lemma split_zip : forall (t : tree Z) z p x q, elements t = p ++ x :: q ->
  exists c l r z', plug z' (Node c l x r) = plug z t /\ before Z z' ++ elements l = before Z z ++ p /\ elements r ++ after Z z' = q ++ after Z z.
Proof.
  induction t as [|c l IHl y r IHr]; intros z p x q E; cbn [elements] in E; [destruct p; discriminate|].
  assert (X : (exists w, elements l = p ++ x :: w /\ q = w ++ y :: elements r) \/ (p = elements l /\ x = y /\ q = elements r) \/ (exists w, p = elements l ++ y :: w /\ elements r = w ++ x :: q)).
  { destruct (app_eq_app _ _ _ _ E) as (w & [[E1 E2]|[E1 E2]]); (destruct w as [|v w]; cbn [app] in E2; [injection E2; intros; subst; rewrite app_nil_r in *; subst; auto|injection E2; intros; subst; eauto]). }
  destruct X as [(w & E1 & ->)|[(-> & -> & ->)|(w & -> & E2)]].
  - destruct (IHl ((L, c, y, r) :: z) p x w E1) as (c' & l' & r' & z' & A & B & C). exists c', l', r', z'. split; [exact A|]. split; [exact B|].
    rewrite C. cbn [after]. rewrite <- app_assoc. reflexivity.
  - exists c, l, r, z. auto.
  - destruct (IHr ((R, c, y, l) :: z) w x q E2) as (c' & l' & r' & z' & A & B & C). exists c', l', r', z'. split; [exact A|].
    split; [|exact C]. rewrite B. cbn [before]. rewrite <- !app_assoc. reflexivity.
Qed.
Lemma stored_place h t a : stored h t -> In a (elements t) -> place a /\ at_ h a <> None.
Proof.
  intros (_ & H & _). generalize 0 H. clear. induction t as [|c l IHl x r IHr]; intros p H I; [destruct I|]. destruct H as (P & C & D1 & D2).
  cbn [elements] in I. apply in_app_or in I. destruct I as [I|[<-|I]]; [eapply IHl; eauto|split; [exact P|congruence]|eapply IHr; eauto].
Qed.
Lemma step_at fuel h t p x q : stored h t -> (size t < fuel)%nat -> elements t = p ++ x :: q ->
  rb_next fuel x h = Done (found (hd_error q)) /\ rb_prev fuel x h = Done (found (hd_error (rev p))).
Proof.
  intros S Lf E. destruct (split_zip t [] p x q E) as (c & l & r & z & A & B & C). cbn [plug before after app] in *. rewrite app_nil_r in C.
  rewrite <- A in S, Lf. apply stored_plug in S. destruct (rb_next_ok fuel h c l x r z S Lf) as [N1 N2]. rewrite N1, N2, next_node_spec, prev_node_spec, B, C. auto.
Qed.
Lemma visit_next fuel h t : stored h t -> (size t < fuel)%nat -> forall q p f, elements t = p ++ q -> (length q < f)%nat ->
  visit (fun n => rb_next fuel n h) f (found (hd_error q)) = Done q.
Proof.
  intros S Lf. induction q as [|x q IH]; intros p f E L; (destruct f as [|f]; [lia|]); cbn [visit hd_error found]; [reflexivity|].
  destruct (stored_place h t x S) as [P _]; [rewrite E; apply in_elt|]. rewrite (proj2 (Z.eqb_neq _ _) (proj1 P)).
  destruct (step_at fuel h t p x q S Lf E) as [N _]. rewrite N. rewrite (IH (p ++ [x]) f); [reflexivity|rewrite <- app_assoc; exact E|cbn [length] in L; lia].
Qed.
Lemma visit_prev fuel h t : stored h t -> (size t < fuel)%nat -> forall q p f, elements t = rev q ++ p -> (length q < f)%nat ->
  visit (fun n => rb_prev fuel n h) f (found (hd_error q)) = Done q.
Proof.
  intros S Lf. induction q as [|x q IH]; intros p f E L; (destruct f as [|f]; [lia|]); cbn [visit hd_error found]; [reflexivity|].
  cbn [rev] in E. rewrite <- app_assoc in E. cbn [app] in E.
  destruct (stored_place h t x S) as [P _]; [rewrite E; apply in_elt|]. rewrite (proj2 (Z.eqb_neq _ _) (proj1 P)).
  destruct (step_at fuel h t (rev q) x p S Lf E) as [_ N]. rewrite rev_involutive in N. rewrite N. rewrite (IH (x :: p) f); [reflexivity|exact E|cbn [length] in L; lia].
Qed.
Lemma walks fuel h t : stored h t -> (size t < fuel)%nat -> forwards fuel h = Done (elements t) /\ backwards fuel h = Done (rev (elements t)).
Proof.
  intros S Lf. destruct (rb_first_ok fuel h t S Lf) as [F L]. unfold forwards, backwards. rewrite F, L, first_node_spec, last_node_spec. rewrite size_elements in Lf. split.
  - apply (visit_next fuel h t S ltac:(rewrite size_elements; exact Lf) (elements t) []); [reflexivity|exact Lf].
  - apply (visit_prev fuel h t S ltac:(rewrite size_elements; exact Lf) (rev (elements t)) []); [rewrite rev_involutive, app_nil_r; reflexivity|rewrite rev_length; exact Lf].
Qed.

(** * Programs *)
Section Run.
Variable K : Type.
Variable key : Z -> K.
Variable kcmp : K -> K -> Z.
Variable dom : K -> Prop.
Hypothesis ord : orders kcmp dom.
Notation good := (good Z K key kcmp dom).
Lemma insert_step fuel t h x : good t -> dom (key x) -> stored h t -> (S (size t) < fuel)%nat -> place x -> at_ h x <> None ->
  exists t' r h', insert (cmp key kcmp) t x (key x) = Some (t', r) /\ rb_insert_node (cmp key kcmp) fuel x (key x) h = Done (found r, h') /\ stored h' t' /\ good t' /\
    (size t' <= S (size t))%nat /\ (forall a, In a (elements t') <-> In a (elements t) \/ (r = None /\ a = x)) /\
    (r <> None -> h' = h) /\ forall a, a <> x -> ~ In a (elements t) -> at_ h' a = at_ h a.
Proof.
  intros G D S Lf P A. pose proof (insert_good Z K key kcmp dom ord t x G D) as I. pose proof (search_good Z K key kcmp dom ord t (key x) G D) as Q.
  assert (Ex : exists t' r, insert (cmp key kcmp) t x (key x) = Some (t', r) /\ good t' /\ (size t' <= 1 + size t)%nat /\
    (forall a, In a (elements t') <-> In a (elements t) \/ (r = None /\ a = x)) /\ (r = None -> times x t = 0)).
  { destruct (search _ t (key x)) as [y|].
    - exists t, (Some y). split; [exact I|]. split; [exact G|]. split; [lia|]. split; [|discriminate]. intros a. split; [auto|]. intros [H|[H _]]; [exact H|discriminate].
    - destruct I as (t' & I1 & I2 & p & q & I3 & I4). exists t', None. split; [exact I1|]. split; [exact I2|].
      split; [rewrite !size_elements, I3, I4, !app_length; cbn [length]; lia|]. split.
      + intros a. rewrite I3, I4, !in_app_iff. cbn [In]. intuition auto.
      + intros _. apply times_out. intros H. destruct (Q x) as [_ Q']. discriminate Q'; auto. }
  destruct Ex as (t' & r & E & G' & Sz & El & N).
  destruct (rb_insert_node_ok K (cmp key kcmp) fuel t x (key x) h t' r S Lf E) as (h' & B1 & B2 & B3 & B4); [intros Hr; auto|].
  exists t', r, h'. repeat (split; [first [exact E|exact B1|exact B2|exact G'|exact Sz|exact El|exact B3]|]). intros a Na Ia. apply B4; [exact Na|apply times_out; exact Ia].
Qed.
Lemma erase_step fuel t h k : good t -> dom k -> stored h t -> (size t < fuel)%nat ->
  exists t' h', erase (cmp key kcmp) t k = Some t' /\ rb_remove (cmp key kcmp) fuel k h = Done h' /\ stored h' t' /\ good t' /\
    (size t' <= size t)%nat /\ (forall a, In a (elements t') -> In a (elements t)) /\
    (forall a, In a (elements t) -> ~ In a (elements t') -> key a = k /\ at_ h' a = at_ h a) /\
    forall a, ~ In a (elements t) -> at_ h' a = at_ h a.
Proof.
  intros G D S Lf. pose proof (erase_good Z K key kcmp dom ord t k G D) as I. pose proof (search_good Z K key kcmp dom ord t k G D) as Q.
  assert (Ex : exists t', erase (cmp key kcmp) t k = Some t' /\ good t' /\ (size t' <= size t)%nat /\ (forall a, In a (elements t') -> In a (elements t)) /\
    (forall a, In a (elements t) -> ~ In a (elements t') -> search (cmp key kcmp) t k = Some a)).
  { destruct (search _ t k) as [y|].
    - destruct I as (t' & I1 & I2 & p & q & I3 & I4). exists t'. split; [exact I1|]. split; [exact I2|].
      split; [rewrite !size_elements, I3, I4, !app_length; cbn [length]; lia|]. split; intros a; rewrite I3, I4, !in_app_iff; cbn [In]; [tauto|].
      intros [H|[->|H]] N; [tauto|reflexivity|tauto].
    - exists t. split; [exact I|]. split; [exact G|]. split; [lia|]. split; [auto|]. intros a A B. contradiction. }
  destruct Ex as (t' & E & G' & Sz & El & N). destruct (rb_remove_ok K (cmp key kcmp) fuel t k h t' S Lf E) as (h' & B1 & B2 & B3 & B4).
  exists t', h'. repeat (split; [first [exact E|exact B1|exact B2|exact G'|exact Sz|exact El]|]). split.
  - intros a A B. pose proof (N a A B) as F. split; [apply Q; exact F|apply B4; exact F].
  - intros a Ia. apply B3, times_out, Ia.
Qed.
Lemma run_ok fuel : forall ops t h, good t -> stored h t -> Forall (fun o => dom (op_key key o)) ops -> (length ops + size t < fuel)%nat ->
  (forall x, In (Insert x) ops -> place x /\ at_ h x <> None) ->
  exists t' h', fold_left (tree_step key kcmp) ops (Some t) = Some t' /\ heap_run key kcmp fuel ops h = Done h' /\ stored h' t' /\ good t' /\ (size t' <= length ops + size t)%nat /\
    forall a, ~ In a (elements t) -> ~ In (Insert a) ops -> at_ h' a = at_ h a.
Proof.
  induction ops as [|o ops IH]; intros t h G S F Lf A; cbn [fold_left heap_run length] in *.
  - exists t, h. repeat (split; [first [reflexivity|assumption|lia]|]). auto.
  - inversion F as [|? ? D F']; subst. destruct o as [x|k]; cbn [op_key tree_step heap_step] in *.
    + destruct (A x (or_introl eq_refl)) as [P Ax].
      destruct (insert_step fuel t h x G D S ltac:(lia) P Ax) as (t1 & r & h1 & E1 & E2 & S1 & G1 & Z1 & El & Same & Out).
      rewrite E1, E2. destruct (IH t1 h1 G1 S1 F' ltac:(lia)) as (t' & h' & R1 & R2 & R3 & R4 & R5 & R6).
      { intros y Iy. destruct (A y (or_intror Iy)) as [Py Ay]. split; [exact Py|]. destruct (in_dec Z.eq_dec y (elements t1)) as [I1|I1]; [apply (stored_place h1 t1 y S1 I1)|].
        assert (I0 : ~ In y (elements t)) by (intros I0; apply I1, El; auto). destruct (Z.eq_dec y x) as [->|Ny]; [|rewrite Out by assumption; exact Ay].
        destruct r as [r|]; [rewrite Same by discriminate; exact Ay|]. exfalso. apply I1, El. auto. }
      exists t', h'. repeat (split; [first [exact R1|exact R2|exact R3|exact R4|lia]|]). intros a Ia Na.
      assert (Nx : a <> x) by (intros ->; apply Na; left; reflexivity). rewrite R6; [apply Out; assumption|rewrite El; intros [H|[_ H]]; auto|intros H; apply Na; right; exact H].
    + destruct (erase_step fuel t h k G D S ltac:(lia)) as (t1 & h1 & E1 & E2 & S1 & G1 & Z1 & El & Gone & Out).
      rewrite E1, E2. destruct (IH t1 h1 G1 S1 F' ltac:(lia)) as (t' & h' & R1 & R2 & R3 & R4 & R5 & R6).
      { intros y Iy. destruct (A y (or_intror Iy)) as [Py Ay]. split; [exact Py|]. destruct (in_dec Z.eq_dec y (elements t1)) as [I1|I1]; [apply (stored_place h1 t1 y S1 I1)|].
        destruct (in_dec Z.eq_dec y (elements t)) as [I0|I0]; [destruct (Gone y I0 I1) as [_ ->]; exact Ay|rewrite Out by exact I0; exact Ay]. }
      exists t', h'. repeat (split; [first [exact R1|exact R2|exact R3|exact R4|lia]|]). intros a Ia Na. rewrite R6; [apply Out; exact Ia|intros H; apply Ia, El, H|intros H; apply Na; right; exact H].
Qed.
End Run.

(** From an empty tree, whatever is inserted (nodes at aligned, allocated addresses) and removed:
    nothing is followed that is not a node, the loops end; the nodes found by walking forwards and
    backwards are those of the set, each once, in the order of the keys; a search finds the node
    with the key or NULL; destroying the tree hands every node to the callback once, in the order
    of the keys, and never looks at one afterwards; and no other memory is written. *)
Theorem C128_program : forall (K : Type) (key : Z -> K) (kcmp : K -> K -> Z) (keqb : K -> K -> bool) (dom : K -> Prop),
  orders kcmp dom -> (forall a b, keqb a b = true <-> a = b) ->
  forall (ops : list (op Z K)) fuel h0, root h0 = 0 -> Forall (fun o => dom (op_key key o)) ops ->
  (forall x, In (Insert x) ops -> place x /\ at_ h0 x <> None) -> (length ops < fuel)%nat ->
  let set := fold_left (set_step key keqb) ops [] in
  exists h nodes, heap_run key kcmp fuel ops h0 = Done h /\
    (forall a, In a nodes <-> In a set) /\ NoDup nodes /\ StronglySorted (fun a b => kcmp (key b) (key a) < 0) nodes /\
    forwards fuel h = Done nodes /\ backwards fuel h = Done (rev nodes) /\
    (forall k, dom k -> exists r, rb_search_node (cmp key kcmp) fuel k h = Done r /\
       ((In r set /\ key r = k /\ r <> 0) \/ (r = 0 /\ forall y, In y set -> key y <> k))) /\
    (exists h', rb_destroy fuel h = Done (nodes, h') /\ (forall a, In a set -> at_ h' a = None) /\ (forall a, ~ In a set -> at_ h' a = at_ h a)) /\
    (forall a, ~ In (Insert a) ops -> at_ h a = at_ h0 a).
Proof.
  intros K key kcmp keqb dom ord keq ops fuel h0 R0 D A Lf set.
  assert (S0 : stored h0 Leaf) by (split; [exact R0|]; split; [exact I|]; intros a; cbn; lia).
  destruct (run_ok K key kcmp dom ord fuel ops Leaf h0 (good_leaf Z K key kcmp dom) S0 D ltac:(cbn [size]; lia) A) as (t & h & T & H & S & G & Sz & Out).
  destruct (C27_tree_is_map Z K key kcmp keqb dom ord keq ops D) as (t' & T' & El & So & Se & _).
  assert (t' = t) as -> by congruence. cbn [size] in Sz. assert (Sf : (size t < fuel)%nat) by lia.
  exists h, (elements t). destruct (walks fuel h t S Sf) as [W1 W2]. pose proof S as (Rt & Ht & U).
  split; [exact H|]. split; [exact El|]. split; [apply times_once; exact U|]. split; [exact So|]. split; [exact W1|]. split; [exact W2|]. split; [|split].
  - intros k Dk. exists (found (search (cmp key kcmp) t k)). split; [unfold rb_search_node; rewrite Rt; apply (rb_search_ok K (cmp key kcmp) k h t fuel 0 Ht Sf)|].
    destruct (search (cmp key kcmp) t k) as [y|] eqn:E; cbn [found].
    + left. destruct (proj1 (Se k y Dk) E) as [I1 I2]. split; [exact I1|]. split; [exact I2|]. apply (stored_place h t y S), El, I1.
    + right. split; [reflexivity|]. intros y Iy Ky. rewrite (proj2 (Se k y Dk) (conj Iy Ky)) in E. discriminate.
  - destruct (rb_destroy_ok fuel t h S Sf) as (h' & E & _ & F). exists h'. split; [exact E|]. split; intros a Ia; rewrite F.
    + apply El, times_in in Ia. rewrite (proj2 (Z.ltb_lt _ _) Ia). reflexivity.
    + rewrite (times_out a t) by (rewrite El; exact Ia). reflexivity.
  - intros a Na. apply Out; [intros []|exact Na].
Qed.
Print Assumptions C128_program.

(** The pointers form the tree of the algorithm, with its colours and parents. *)
Theorem C128_refines : forall (K : Type) (key : Z -> K) (kcmp : K -> K -> Z) (dom : K -> Prop), orders kcmp dom ->
  forall (ops : list (op Z K)) fuel h0, root h0 = 0 -> Forall (fun o => dom (op_key key o)) ops ->
  (forall x, In (Insert x) ops -> place x /\ at_ h0 x <> None) -> (length ops < fuel)%nat ->
  exists t h, fold_left (tree_step key kcmp) ops (Some Leaf) = Some t /\ heap_run key kcmp fuel ops h0 = Done h /\ stored h t.
Proof.
  intros K key kcmp dom ord ops fuel h0 R0 D A Lf.
  assert (S0 : stored h0 Leaf) by (split; [exact R0|]; split; [exact I|]; intros a; cbn; lia).
  destruct (run_ok K key kcmp dom ord fuel ops Leaf h0 (good_leaf Z K key kcmp dom) S0 D ltac:(cbn [size]; lia) A) as (t & h & T & H & S & _). exists t, h. auto.
Qed.
Print Assumptions C128_refines.

(** An insertion under a key that is taken returns the node there and writes nothing; otherwise
    it returns NULL and writes no memory but that of the nodes.  Whatever else the program does to
    other memory before it. *)
Theorem C128_insert : forall (K : Type) (key : Z -> K) (kcmp : K -> K -> Z) (dom : K -> Prop), orders kcmp dom ->
  forall (ops : list (op Z K)) t fuel h x, Forall (fun o => dom (op_key key o)) ops -> dom (key x) -> fold_left (tree_step key kcmp) ops (Some Leaf) = Some t ->
  stored h t -> (S (length (elements t)) < fuel)%nat -> place x -> at_ h x <> None ->
  exists r h' t', rb_insert_node (cmp key kcmp) fuel x (key x) h = Done (r, h') /\ stored h' t' /\
    ((r <> 0 /\ In r (elements t) /\ key r = key x /\ h' = h) \/
     (r = 0 /\ (forall y, In y (elements t) -> key y <> key x) /\ (forall a, In a (elements t') <-> In a (elements t) \/ a = x) /\
      forall a, ~ In a (elements t') -> at_ h' a = at_ h a)).
Proof.
  intros K key kcmp dom ord ops t fuel h x D Dx T S Lf P A.
  assert (G : good Z K key kcmp dom t).
  { clear - ord D T. assert (X : forall ops t0 t, good Z K key kcmp dom t0 -> Forall (fun o => dom (op_key key o)) ops -> fold_left (tree_step key kcmp) ops (Some t0) = Some t -> good Z K key kcmp dom t).
    { clear - ord. induction ops as [|o ops IH]; intros t0 t G D T; cbn [fold_left] in T; [congruence|]. inversion D as [|? ? Dk D']; subst.
      destruct o as [y|k]; cbn [tree_step op_key] in *.
      - pose proof (insert_good Z K key kcmp dom ord t0 y G Dk) as I. destruct (search _ t0 (key y)) as [w|]; [rewrite I in T; eapply IH; eauto|].
        destruct I as (t1 & I1 & I2 & _). rewrite I1 in T. eapply IH; eauto.
      - pose proof (erase_good Z K key kcmp dom ord t0 k G Dk) as I. destruct (search _ t0 k) as [w|]; [destruct I as (t1 & I1 & I2 & _); rewrite I1 in T; eapply IH; eauto|rewrite I in T; eapply IH; eauto]. }
    apply (X ops Leaf t); [apply good_leaf|exact D|exact T]. }
  rewrite <- size_elements in Lf. destruct (insert_step K key kcmp dom ord fuel t h x G Dx S Lf P A) as (t' & r & h' & E1 & E2 & S' & G' & _ & El & Same & Out).
  pose proof (insert_good Z K key kcmp dom ord t x G Dx) as I. pose proof (search_good Z K key kcmp dom ord t (key x) G Dx) as Q.
  exists (found r), h', t'. split; [exact E2|]. split; [exact S'|]. destruct (search _ t (key x)) as [y|] eqn:Es.
  - left. rewrite I in E1. injection E1 as <- <-. destruct (proj1 (Q y) eq_refl) as [Q1 Q2]. cbn [found]. split; [apply (stored_place h t y S Q1)|]. split; [exact Q1|]. split; [exact Q2|]. apply Same. discriminate.
  - right. destruct I as (t1 & I1 & _). rewrite I1 in E1. injection E1 as <- <-. split; [reflexivity|]. split; [intros y Iy Ky; destruct (Q y) as [_ Q']; discriminate Q'; auto|].
    split; [intros a; rewrite El; split; [intros [H|[_ H]]; auto|intros [H|H]; auto]|].
    intros a Na. apply Out; [intros ->; apply Na, El; auto|intros H; apply Na, El; auto].
Qed.
Print Assumptions C128_insert.

(** A search looks at no more than 1 + 2 log2(n + 1) nodes of n. *)
Lemma search_depth (K : Type) (c : Z -> K -> Z) k h : forall t fuel p, holds (at_ h) p t -> depth t < Z.of_nat fuel -> rb_search_from c fuel (ptr t) k h = Done (found (search c t k)).
Proof.
  induction t as [|co l IHl x r IHr]; intros fuel p H Lf; (destruct fuel as [|fuel]; [cbn [depth] in Lf; try lia|]); cbn [rb_search_from ptr search depth] in *; [reflexivity| |].
  - exfalso. assert (N : forall t : tree Z, 0 <= depth t) by (induction t; cbn [depth]; lia). pose proof (N l). lia.
  - destruct H as (P & C & D1 & D2). rewrite (proj2 (Z.eqb_neq _ _) (proj1 P)), (ld_ok _ _ _ C). red1.
    destruct (c x k <? 0); [apply (IHl _ x); [exact D1|lia]|]. destruct (0 <? c x k); [apply (IHr _ x); [exact D2|lia]|reflexivity].
Qed.
Theorem C128_search_cost : forall (K : Type) (key : Z -> K) (kcmp : K -> K -> Z) (keqb : K -> K -> bool) (dom : K -> Prop),
  orders kcmp dom -> (forall a b, keqb a b = true <-> a = b) ->
  forall (ops : list (op Z K)) fuel h0 h nodes, root h0 = 0 -> Forall (fun o => dom (op_key key o)) ops ->
  (forall x, In (Insert x) ops -> place x /\ at_ h0 x <> None) -> (length ops < fuel)%nat ->
  heap_run key kcmp fuel ops h0 = Done h -> forwards fuel h = Done nodes ->
  forall k few, dom k -> 2 * Z.log2 (1 + zlen nodes) < Z.of_nat few ->
  rb_search_node (cmp key kcmp) few k h = rb_search_node (cmp key kcmp) fuel k h /\ rb_search_node (cmp key kcmp) few k h <> OutOfFuel.
Proof.
  intros K key kcmp keqb dom ord keq ops fuel h0 h nodes R0 D A Lf H W k few Dk F.
  assert (S0 : stored h0 Leaf) by (split; [exact R0|]; split; [exact I|]; intros a; cbn; lia).
  destruct (run_ok K key kcmp dom ord fuel ops Leaf h0 (good_leaf Z K key kcmp dom) S0 D ltac:(cbn [size]; lia) A) as (t & h' & T & H' & S & G & Sz & _).
  assert (h' = h) as -> by congruence. cbn [size] in Sz. assert (Sf : (size t < fuel)%nat) by lia. destruct (walks fuel h t S Sf) as [W1 _].
  assert (nodes = elements t) as -> by congruence.
  destruct (C27_tree_is_map Z K key kcmp keqb dom ord keq ops D) as (t' & T' & _ & _ & _ & Dp). assert (t' = t) as -> by congruence.
  pose proof S as (Rt & Ht & U). unfold rb_search_node. rewrite Rt.
  rewrite (search_depth K (cmp key kcmp) k h t few 0 Ht ltac:(lia)), (rb_search_ok K (cmp key kcmp) k h t fuel 0 Ht Sf). split; [reflexivity|discriminate].
Qed.
Print Assumptions C128_search_cost.

(** The hypotheses hold: eleven nodes inserted in an order that rotates both ways, one of them
    under a key that is taken, and some removed, at the root, inside and at a leaf; one is
    inserted again. *)
Definition ex_key (a : Z) : Z := (a / 16) mod 64.
Definition ex_heap : heap := Heap 0 (fun a => if (0 <? a) && (a mod 16 =? 0) then Some (Cell 77 78 79) else None).
Definition ex_ops : list (op Z Z) :=
  map (fun n => Insert (16 * n)) [10; 20; 30; 15; 25; 5; 1; 3; 40; 74; 12] ++ map (fun k => Erase (K := Z) k) [20; 5; 30; 99; 1] ++ [Insert 320].
Example C128_case : orders start_cmp (fun _ => True) /\ root ex_heap = 0 /\ (forall x, In (Insert x) ex_ops -> place x /\ at_ ex_heap x <> None) /\
  match heap_run ex_key start_cmp 50 ex_ops ex_heap with
  | Done h => forwards 50 h = Done (map (Z.mul 16) [3; 10; 12; 15; 20; 25; 40]) /\
              (exists h', rb_destroy 50 h = Done (map (Z.mul 16) [3; 10; 12; 15; 20; 25; 40], h')) /\ rb_search_node (cmp ex_key start_cmp) 50 25 h = Done 400
  | _ => False
  end.
Proof.
  split; [exact C27_start_cmp_orders|]. split; [reflexivity|]. split.
  - intros x I. vm_compute in I. repeat (destruct I as [I|I]; [try discriminate I; injection I as <-; vm_compute; intuition discriminate|]). destruct I.
  - vm_compute. split; [reflexivity|]. split; [eexists; reflexivity|reflexivity].
Qed.
