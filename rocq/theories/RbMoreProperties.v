(** C154: replacing a node of the red-black tree, and freeing one in postorder. *)
From Coq Require Import Sorting.Sorted Permutation.
From Verif Require Import Base RbModel RbSpec RbProofs RbProperties RbHeapModel RbHeapSpec RbHeapProofs RbHeapProofs2 RbHeapProofs3 RbHeapProperties RbMoreModel RbMoreSpec RbMoreProofs.

Lemma renamed_good (K : Type) (key : Z -> K) kcmp dom v n t : key n = key v -> good Z K key kcmp dom t -> good Z K key kcmp dom (renamed v n t).
Proof.
  intros E ((N & G1) & G2 & G3). assert (Q : forall a, key (swap v n a) = key a) by (intros a; unfold swap; destruct (Z.eqb_spec a v); congruence).
  split; [exists N; apply renamed_rb, G1|]. rewrite renamed_elements. split.
  - clear - G2 Q. induction G2 as [|a l S IH F]; cbn [map]; constructor; [exact IH|]. apply Forall_forall. intros b I. apply in_map_iff in I. destruct I as (b' & <- & I).
    rewrite Forall_forall in F. unfold lt in *. rewrite !Q. apply F, I.
  - apply Forall_forall. intros b I. apply in_map_iff in I. destruct I as (b' & <- & I). rewrite Q. rewrite Forall_forall in G3. apply G3, I.
Qed.

(** After any program of insertions and removals, a node of the tree is replaced by one outside it
    (allocated, aligned): the walks find the new node where the old one was and all others as
    before; the memory of the old node and of everything outside the tree is not written.  If the
    new node has the key of the old one, every further program does to the tree what it should:
    its nodes are those of the set, in the order of the keys. *)
Theorem C154_replace : forall (K : Type) (key : Z -> K) (kcmp : K -> K -> Z) (keqb : K -> K -> bool) (dom : K -> Prop),
  orders kcmp dom -> (forall a b, keqb a b = true <-> a = b) ->
  forall (ops : list (op Z K)) fuel h0 h nodes, root h0 = 0 -> Forall (fun o => dom (op_key key o)) ops ->
  (forall x, In (Insert x) ops -> place x /\ at_ h0 x <> None) -> (length ops < fuel)%nat ->
  heap_run key kcmp fuel ops h0 = Done h -> forwards fuel h = Done nodes ->
  forall v n, In v nodes -> ~ In n nodes -> place n -> at_ h n <> None ->
  exists h', rb_replace_node v n h = Done h' /\
    let nodes' := map (fun a => if a =? v then n else a) nodes in
    forwards fuel h' = Done nodes' /\ backwards fuel h' = Done (rev nodes') /\
    at_ h' v = at_ h v /\ (forall a, a <> n -> ~ In a nodes -> at_ h' a = at_ h a) /\
    (key n = key v -> forall ops2, Forall (fun o => dom (op_key key o)) ops2 -> (forall x, In (Insert x) ops2 -> place x /\ at_ h' x <> None) ->
     forall fuel2, (length ops2 + fuel < fuel2)%nat ->
     exists h2 nodes2, heap_run key kcmp fuel2 ops2 h' = Done h2 /\ forwards fuel2 h2 = Done nodes2 /\
       (forall a, In a nodes2 <-> In a (fold_left (set_step key keqb) ops2 nodes')) /\
       NoDup nodes2 /\ StronglySorted (fun a b => kcmp (key b) (key a) < 0) nodes2).
Proof.
  intros K key kcmp keqb dom ord keq ops fuel h0 h nodes R0 D A Lf H W v n Iv In_ Pn An.
  assert (S0 : stored h0 Leaf) by (split; [exact R0|]; split; [exact I|]; intros a; cbn; lia).
  destruct (run_ok K key kcmp dom ord fuel ops Leaf h0 (good_leaf Z K key kcmp dom) S0 D ltac:(cbn [size]; lia) A) as (t & h' & T & H' & S & G & Sz & _).
  assert (h' = h) as -> by congruence. cbn [size] in Sz. assert (Sf : (size t < fuel)%nat) by lia. destruct (walks fuel h t S Sf) as [W1 _].
  assert (nodes = elements t) as -> by congruence.
  destruct (replace_stored h t v n S Iv In_ Pn An) as (h' & E1 & E2 & E3 & E4). exists h'. split; [exact E1|]. cbv zeta.
  assert (Em : map (fun a => if a =? v then n else a) (elements t) = elements (renamed v n t)) by (rewrite renamed_elements; reflexivity). rewrite Em.
  destruct (walks fuel h' (renamed v n t) E2 ltac:(rewrite renamed_size; exact Sf)) as [W2 W3].
  split; [exact W2|]. split; [exact W3|]. split; [exact E3|]. split; [exact E4|].
  intros Ek ops2 D2 A2 fuel2 L2. pose proof (renamed_good K key kcmp dom v n t Ek G) as G'.
  destruct (run_ok K key kcmp dom ord fuel2 ops2 (renamed v n t) h' G' E2 D2 ltac:(rewrite renamed_size; lia) A2) as (t2 & h2 & T2 & H2 & S2 & G2 & Sz2 & _).
  destruct (run_ops Z K key kcmp dom ord keqb keq ops2 (renamed v n t) (elements (renamed v n t)) G' D2 ltac:(reflexivity)) as (t3 & T3 & _ & El). assert (t3 = t2) as -> by congruence.
  rewrite renamed_size in Sz2. exists h2, (elements t2). destruct (walks fuel2 h2 t2 S2 ltac:(lia)) as [W4 _].
  split; [exact H2|]. split; [exact W4|]. split; [intros a; symmetry; apply El|]. split; [apply times_once, S2|exact (proj1 (proj2 G2))].
Qed.
Print Assumptions C154_replace.

(** Shape and colours are those before: the pointers form the same tree with the one address
    changed. *)
Theorem C154_shape : forall h t v n, stored h t -> In v (elements t) -> ~ In n (elements t) -> place n -> at_ h n <> None ->
  exists h', rb_replace_node v n h = Done h' /\ stored h' (renamed v n t).
Proof. intros h t v n S Iv In_ Pn An. destruct (replace_stored h t v n S Iv In_ Pn An) as (h' & A & B & _). eauto. Qed.
Print Assumptions C154_shape.

(** The walk in postorder that frees every node it is at ends, never looks at freed memory, frees
    every node once, each before its parent, and no other memory is written. *)
Theorem C154_postorder : forall (K : Type) (key : Z -> K) (kcmp : K -> K -> Z) (dom : K -> Prop), orders kcmp dom ->
  forall (ops : list (op Z K)) fuel h0 h nodes, root h0 = 0 -> Forall (fun o => dom (op_key key o)) ops ->
  (forall x, In (Insert x) ops -> place x /\ at_ h0 x <> None) -> (S (length ops) < fuel)%nat ->
  heap_run key kcmp fuel ops h0 = Done h -> forwards fuel h = Done nodes ->
  exists freed h', free_postorder fuel h = Done (freed, h') /\ Permutation freed nodes /\
    (forall a c, In a nodes -> at_ h a = Some c -> parent_of (pc c) <> 0 -> earlier freed a (parent_of (pc c))) /\
    (forall a, In a nodes -> at_ h' a = None) /\ (forall a, ~ In a nodes -> at_ h' a = at_ h a).
Proof.
  intros K key kcmp dom ord ops fuel h0 h nodes R0 D A Lf H W.
  assert (S0 : stored h0 Leaf) by (split; [exact R0|]; split; [exact I|]; intros a; cbn; lia).
  destruct (run_ok K key kcmp dom ord fuel ops Leaf h0 (good_leaf Z K key kcmp dom) S0 D ltac:(cbn [size]; lia) A) as (t & h' & T & H' & S & G & Sz & _).
  assert (h' = h) as -> by congruence. cbn [size] in Sz. assert (Sf : (1 + size t < fuel)%nat) by lia. destruct (walks fuel h t S ltac:(lia)) as [W1 _].
  assert (nodes = elements t) as -> by congruence.
  destruct (free_stored fuel h t S Sf) as (h' & F1 & _ & F3). exists (post t), h'. split; [exact F1|]. split; [apply post_perm|]. split; [|split].
  - intros a c Ia Ca Np. destruct S as (_ & Hh & _). destruct (post_children h t 0 a c Hh eq_refl Ia Ca) as [[_ E]|E]; [congruence|exact E].
  - intros a Ia. rewrite F3. destruct (in_dec Z.eq_dec a (elements t)); [reflexivity|tauto].
  - intros a Ia. rewrite F3. destruct (in_dec Z.eq_dec a (elements t)); [tauto|reflexivity].
Qed.
Print Assumptions C154_postorder.

(** Freeing the nodes in a walk in the order of the keys, the next one found before as the macro
    does for postorder, looks at freed memory. *)
Theorem C154_inorder_refuted : exists h0 (ops : list (op Z Z)) h first, root h0 = 0 /\
  (forall x, In (Insert x) ops -> place x /\ at_ h0 x <> None) /\ heap_run ex_key start_cmp 50 ops h0 = Done h /\
  rb_first 50 h = Done first /\ free_inorder 50 50 first h = Fault /\ exists l h', free_postorder 50 h = Done (l, h').
Proof.
  exists ex_heap, (map (fun n => Insert (16 * n)) [10; 20; 30]). eexists. exists 160. split; [reflexivity|]. split.
  - intros x I. cbn in I. repeat (destruct I as [I|I]; [injection I as <-; vm_compute; intuition discriminate|]). destruct I.
  - split; [vm_compute; reflexivity|]. split; [vm_compute; reflexivity|]. split; [vm_compute; reflexivity|]. eexists _, _. vm_compute. reflexivity.
Qed.
Print Assumptions C154_inorder_refuted.

(** The hypotheses hold: the tree of seven nodes of C128, the node 400 (key 25) replaced by the
    node 1424 with the same key; then more is inserted and removed. *)
Example C154_case : match heap_run ex_key start_cmp 50 ex_ops ex_heap with
  | Done h => (exists nodes, forwards 50 h = Done nodes /\ In 400 nodes /\ ~ In 1424 nodes) /\ place 1424 /\ at_ h 1424 <> None /\ ex_key 1424 = ex_key 400 /\
      match rb_replace_node 400 1424 h with
      | Done h' => forwards 50 h' = Done [48; 160; 192; 240; 320; 1424; 640] /\
          match heap_run ex_key start_cmp 60 [Insert 400; Erase 10; Insert 112] h' with
          | Done h2 => forwards 60 h2 = Done [48; 112; 192; 240; 320; 1424; 640] | _ => False end /\
          match free_postorder 50 h' with Done (l, _) => length l = 7%nat | _ => False end
      | _ => False end
  | _ => False end.
Proof.
  vm_compute. split; [eexists; split; [reflexivity|]; split; [auto 10|intuition discriminate]|]. split; [split; [discriminate|reflexivity]|]. split; [discriminate|]. auto.
Qed.
