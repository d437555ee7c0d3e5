(** Properties C121 and C122: the linked lists of the tools, and freeing them. *)
From Coq Require Import Lia.
From Verif Require Import Base TextModel ListModel ListSpec ListProofs.
Open Scope list_scope.

(** C121.  In memory with any number of lists that share nothing, each operation, done
    with what it asks for, does to the lists what it does to sequences, touches no memory
    that was not given to it or is in one of the lists, and the lists still share
    nothing. *)
Theorem C121_operation : forall o h ls, holds h ls -> lmay o h ls ->
  exists h', lexec o h = Ok h' /\ holds h' (lstep o ls) /\ (forall a, ~ ltouched o ls a -> h' a = h a).
Proof. exact lexec_step. Qed.
Print Assumptions C121_operation.

(** So do all of a program's operations, one after the other; nothing is allocated or
    freed by them. *)
Theorem C121_run : forall os h ls, holds h ls -> lrun_may os h ls ->
  exists h', lrun os h = Ok h' /\ holds h' (lsteps os ls) /\ (forall a, h' a = None <-> h a = None).
Proof. exact lrun_steps. Qed.
Print Assumptions C121_run.

(** The loops see the entries, each once, in order or in reverse order. *)
Theorem C121_loops : forall h ls hd l n, holds h ls -> In (hd, l) ls -> (length l < n)%nat ->
  for_each n hd (fun _ h => Ok h) h = Ok (l, h) /\
  for_each_reverse n hd (fun _ h => Ok h) h = Ok (rev l, h) /\
  list_empty hd h = Ok (match l with [] => true | _ => false end) /\
  next hd h = Ok (List.hd hd l) /\ prev hd h = Ok (last l hd).
Proof.
  intros h ls hd l n H I F. apply in_split in I as (A & B & ->). destruct (holds_split _ _ _ _ _ H) as (R & _).
  split; [now apply for_each_ring|]. split; [now apply for_each_reverse_ring|].
  pose proof (linked_nxt _ _ _ _ (proj2 R)) as En. split; [|split].
  - unfold list_empty. rewrite (next_ok _ _ _ En). cbn [rbind]. destruct l as [|x r]; cbn [List.hd]; [now rewrite Z.eqb_refl|].
    destruct (Z.eqb_spec x hd) as [->|_]; [|reflexivity]. destruct R as (ND & _). inversion ND as [|? ? N _]; exfalso; apply N; now left.
  - now apply next_ok.
  - destruct (linked_prv _ _ _ _ (proj2 R)) as (p & Ep & _). rewrite (prev_ok _ _ _ Ep). f_equal.
    destruct (linked_last _ _ _ _ _ (proj2 R) Ep) as (l0 & El). destruct l as [|x r].
    + destruct l0 as [|? [|]]; now injection El.
    + destruct l0 as [|y l0]; [discriminate|]. injection El as <- El. rewrite El. symmetry. apply (last_last l0 p hd).
Qed.
Print Assumptions C121_loops.

(** Which entry is the last, and whether there is exactly one. *)
Lemma linked_next_at h : forall l1 a x l2 b, linked h a (l1 ++ x :: l2) b -> nxt h x = Some (List.hd b l2).
Proof.
  induction l1 as [|y l1 IH]; intros a x l2 b H; cbn [app linked] in H; destruct H as (_ & _ & H); [|eapply IH; exact H].
  destruct l2 as [|z l2]; cbn [linked] in H; cbn [List.hd]; tauto.
Qed.
Theorem C121_position : forall h ls hd l x, holds h ls -> In (hd, l) ls ->
  (In x l -> exists b, list_is_last x hd h = Ok b /\ (b = true <-> exists l1, l = l1 ++ [x])) /\
  exists b, list_is_singular hd h = Ok b /\ (b = true <-> length l = 1%nat).
Proof.
  intros h ls hd l x H I. apply in_split in I as (A & B & ->). destruct (holds_split _ _ _ _ _ H) as (R & _). destruct R as (ND & L).
  split.
  - intros J. apply in_split in J as (l1 & l2 & ->). unfold list_is_last. rewrite (next_ok _ _ _ (linked_next_at _ _ _ _ _ _ L)). cbn [rbind].
    eexists. split; [reflexivity|]. inversion ND as [|? ? N1 N2]; subst. rewrite Z.eqb_eq. split.
    + intros E. exists l1. destruct l2 as [|z l2]; [reflexivity|]. cbn [List.hd] in E. subst z. exfalso. apply N1. apply in_or_app. right. right. now left.
    + intros (l0 & E). destruct l2 as [|z l2] using rev_ind; [reflexivity|]. exfalso. clear IHl2.
      replace (l1 ++ x :: l2 ++ [z]) with ((l1 ++ x :: l2) ++ [z]) in E by now rewrite <- app_assoc.
      apply app_inj_tail in E. destruct E as (_ & ->). apply NoDup_remove_2 in N2. apply N2. apply in_or_app. right. apply in_or_app. right. now left.
  - unfold list_is_singular. rewrite (next_ok _ _ _ (linked_nxt _ _ _ _ L)). cbn [rbind]. destruct l as [|y l]; cbn [List.hd].
    + rewrite Z.eqb_refl. eexists. split; [reflexivity|]. split; discriminate.
    + inversion ND as [|? ? N1 N2]; subst. destruct (Z.eqb_spec y hd) as [->|_]; [exfalso; apply N1; now left|].
      destruct (linked_prv _ _ _ _ L) as (p & Ep & _). rewrite (prev_ok _ _ _ Ep). cbn [rbind].
      eexists. split; [reflexivity|]. rewrite Z.eqb_eq.
      destruct (linked_last _ _ _ _ _ L Ep) as (l0 & El). destruct l0 as [|y0 l0]; [discriminate|]. injection El as <- El.
      destruct l as [|z l] using rev_ind.
      * split; [reflexivity|]. intros _. destruct l0 as [|w l0]; [now injection El|]. destruct l0; discriminate.
      * clear IHl. change (y :: l ++ [z]) with ((y :: l) ++ [z]) in El. apply app_inj_tail in El. destruct El as (_ & <-). split.
        -- intros ->. exfalso. inversion N2 as [|? ? M1 _]; subst. apply M1. apply in_or_app. right. now left.
        -- cbn [length]. rewrite app_length. cbn. lia.
Qed.
Print Assumptions C121_position.

(** The loop that is told to be safe stands a body that takes out and frees the entry it
    is at: it sees every entry, and those it kept are left in order. *)
Theorem C121_safe_loop : forall h hd l (keep : Z -> bool) n, ring h hd l -> (length l < n)%nat ->
  exists h', for_each_safe n hd (fun x g => if keep x then Ok g else del_free x g) h = Ok (l, h') /\ ring h' hd (filter keep l).
Proof.
  intros h hd l keep n R F.
  destruct (for_each_safe_ring (fun _ => True) hd keep (fun x g => if keep x then Ok g else del_free x g) l n h) as (h' & E & _ & R'); auto.
  - intros k x r g _ Rg _. destruct (keep x) eqn:K.
    + exists g. split; [reflexivity|]. split; [exact I|exact Rg].
    + destruct (list_del_ring g hd k x r Rg) as (g1 & E1 & R1 & X1 & _). unfold del_free. rewrite E1. cbn [rbind].
      assert (Ax : g1 x <> None) by (rewrite X1; apply (ring_alive g hd (k ++ x :: r)); [exact Rg|]; right; apply in_or_app; right; now left).
      destruct (mfree_spec x g1 Ax) as (g2 & E2 & _ & O2). exists g2. split; [exact E2|]. split; [exact I|]. cbn [app].
      apply (ring_frame g1); [|exact R1]. intros z J. apply O2. intros ->. destruct Rg as (ND & _).
      change (hd :: k ++ x :: r) with ((hd :: k) ++ x :: r) in ND. apply NoDup_remove_2 in ND. apply ND. exact J.
  - exists h'. now split.
Qed.
Print Assumptions C121_safe_loop.

(** The plain loop does not: it reads freed memory, for every list that is not empty. *)
Theorem C121_plain_loop_not_safe : forall h hd x l n, ring h hd (x :: l) -> (0 < n)%nat -> for_each n hd del_free h = Crash.
Proof.
  intros h hd x l n R F. destruct n as [|n]; [lia|]. unfold for_each. rewrite (next_ok _ _ _ (linked_nxt _ _ _ _ (proj2 R))). cbn [rbind List.hd each_from].
  destruct (Z.eqb_spec x hd) as [->|_]; [destruct R as (ND & _); inversion ND as [|? ? N _]; exfalso; apply N; now left|].
  destruct (list_del_ring h hd [] x l R) as (g1 & E1 & _ & X1 & _). unfold del_free. rewrite E1. cbn [rbind].
  assert (Ax : g1 x <> None) by (rewrite X1; apply (ring_alive h hd (x :: l)); [exact R|]; right; now left).
  destruct (mfree_spec x g1 Ax) as (g2 & E2 & X2 & _). rewrite E2. cbn [rbind]. unfold next. rewrite X2. reflexivity.
Qed.
Print Assumptions C121_plain_loop_not_safe.

(** list_move: the entry becomes the last. *)
Theorem C121_move : forall h ls x hd, holds h ls -> In x (flat_map snd ls) -> In hd (heads ls) ->
  exists h', list_move x hd h = Ok h' /\ holds h' (lstep (Add x hd) (lstep (Del x) ls)).
Proof.
  intros h ls x hd H I J. destruct (lrun_steps [Del x; Add x hd] h ls H) as (h' & E & H' & _).
  - cbn [lrun_may lmay]. split; [exact I|]. split; [|exact Logic.I].
    destruct (entry_split _ _ I) as (A & a & l1 & l2 & B & ->). destruct (holds_split _ _ _ _ _ H) as (R & D). split; [|split].
    + apply (ring_alive h a (l1 ++ x :: l2)); [exact R|]. right. apply in_or_app. right. now left.
    + destruct (D x) as (D1 & D2); [right; apply in_or_app; right; now left|].
      assert (Rm : forall ls, ~ In x (heads ls) -> ~ In x (nodes (map (fun c => (fst c, remove Z.eq_dec x (snd c))) ls))).
      { clear. induction ls as [|c r IH]; intro N; [easy|]. cbn [map]. rewrite nodes_cons. cbn [fst snd]. intros [e|K].
        - apply N. left. exact e.
        - apply in_app_or in K as [K|K]; [now apply remove_In in K|]. apply IH; [|exact K]. intro Q. apply N. now right. }
      apply Rm. unfold heads. rewrite map_app. cbn [map fst]. intro Q. apply in_app_or in Q as [Q|[e|Q]].
      * apply D1. now apply heads_nodes.
      * subst a. destruct R as (ND & _). inversion ND as [|? ? N _]; apply N. apply in_or_app. right. now left.
      * apply D2. now apply heads_nodes.
    + unfold heads, lstep in *. rewrite map_map. cbn [fst]. exact J.
  - exists h'. split; [|exact H']. cbn [lrun lexec] in E. unfold list_move. destruct (list_del x h) as [h1| | |]; cbn [rbind] in *; try discriminate.
    destruct (list_add x hd h1); cbn [rbind] in E; congruence.
Qed.
Print Assumptions C121_move.

(** list_rotate_left: the first entry becomes the last; an empty list stays so. *)
Theorem C121_rotate : forall h ls hd l, holds h ls -> In (hd, l) ls ->
  match l with
  | [] => list_rotate_left hd h = Ok h
  | x :: _ => exists h', list_rotate_left hd h = Ok h' /\ holds h' (lstep (Add x hd) (lstep (Del x) ls))
  end.
Proof.
  intros h ls hd l H I. destruct (C121_loops h ls hd l (S (length l)) H I ltac:(lia)) as (_ & _ & E & Nx & _).
  unfold list_rotate_left. rewrite E. cbn [rbind]. destruct l as [|x r]; [reflexivity|]. rewrite Nx. cbn [rbind List.hd].
  apply C121_move; [exact H| |].
  - apply in_flat_map. exists (hd, x :: r). split; [exact I|now left].
  - unfold heads. apply in_map_iff. exists (hd, x :: r). now split.
Qed.
Print Assumptions C121_rotate.

(** A list in memory, [300; 200; 100] with the head at 10 *)
Definition ex_heap : heap := fun a =>
  if a =? 10 then Some {| nx := 300; pv := 100 |} else if a =? 300 then Some {| nx := 200; pv := 10 |}
  else if a =? 200 then Some {| nx := 100; pv := 300 |} else if a =? 100 then Some {| nx := 10; pv := 200 |}
  else if a =? 400 then Some {| nx := 0; pv := 0 |} else if a =? 20 then Some {| nx := 7; pv := 7 |} else None.
Lemma ex_holds : holds ex_heap [(10, [300; 200; 100])].
Proof.
  split.
  - cbn. repeat constructor; cbn; intuition discriminate.
  - intros c [<-|[]]. cbn. repeat split.
Qed.
Example C121_position_case : list_is_last 100 10 ex_heap = Ok true /\ list_is_last 200 10 ex_heap = Ok false /\
  list_is_singular 10 ex_heap = Ok false /\ exists h', list_rotate_left 10 ex_heap = Ok h' /\ for_each 9 10 (fun _ h => Ok h) h' = Ok ([200; 100; 300], h').
Proof. split; [reflexivity|]. split; [reflexivity|]. split; [reflexivity|]. eexists. split; reflexivity. Qed.
(** What the comments say is not so: list_add does not put the entry after the head, as
    for a stack (list.h:62-69), and list_move does not make it the first of its new list
    (121-125). *)
Theorem C121_comments_refuted : exists h hd l x,
  ring h hd l /\ h x <> None /\ ~ In x (hd :: l) /\
  (exists h', list_add x hd h = Ok h' /\ ~ ring h' hd (x :: l)) /\
  (exists y h', In y l /\ list_move y hd h = Ok h' /\ next hd h' <> Ok y).
Proof.
  exists ex_heap, 10, [300; 200; 100], 400. destruct (holds_split ex_heap [] 10 [300; 200; 100] [] ex_holds) as (R & _).
  split; [exact R|]. split; [discriminate|]. split; [cbn; intuition discriminate|]. split.
  - eexists. split; [reflexivity|]. intros (_ & A & _). discriminate A.
  - exists 200. eexists. split; [cbn; tauto|]. split; [reflexivity|]. discriminate.
Qed.
Print Assumptions C121_comments_refuted.
Example C121_run_case : exists h,
  lrun [Init 20; Add 400 10; Del 200; Before 200 100; Del 100; Add 100 20] ex_heap = Ok h /\
  holds h [(10, [300; 200; 400]); (20, [100])].
Proof.
  destruct (C121_run [Init 20; Add 400 10; Del 200; Before 200 100; Del 100; Add 100 20] ex_heap [(10, [300; 200; 100])] ex_holds) as (h & E & H & _).
  - cbn. repeat split; try discriminate; try tauto; intuition discriminate.
  - exists h. split; [exact E|exact H].
Qed.
Example C121_safe_loop_case : exists h',
  for_each_safe 4 10 (fun x g => if x =? 200 then Ok g else del_free x g) ex_heap = Ok ([300; 200; 100], h') /\ h' 300 = None /\ h' 100 = None.
Proof. eexists. split; [reflexivity|]. now split. Qed.

(** C122.  Giving up the structures of a process: with the lists of gaps, coroutines,
    contexts and objects, each object with its areas and patches, sharing nothing,
    everything in them is freed, each once (a second free or a look at what is freed would
    be [Crash]), nothing else is, and the lists are empty afterwards. *)
Theorem C122_all_freed_once : forall holes coros pctxs objs lh lc lp os vs ps h n,
  NoDup ((holes :: lh) ++ (coros :: lc) ++ (pctxs :: lp) ++ objs :: flat_map (fun o => o :: vmas_of o :: vs o ++ patches_of o :: ps o) os) ->
  ring h holes lh -> ring h coros lc -> ring h pctxs lp -> ring h objs os ->
  (forall o, In o os -> ring h (vmas_of o) (vs o) /\ ring h (patches_of o) (ps o)) ->
  (length lh < n)%nat -> (length lc < n)%nat -> (length lp < n)%nat -> (length os < n)%nat ->
  (forall o, In o os -> (length (vs o) < n /\ length (ps o) < n)%nat) ->
  exists h', process_free n holes coros pctxs objs h = Ok h' /\
    ring h' holes [] /\ ring h' coros [] /\ ring h' pctxs [] /\ ring h' objs [] /\
    (forall x, In x (lh ++ lc ++ lp ++ flat_map (fun o => o :: vmas_of o :: vs o ++ patches_of o :: ps o) os) -> h' x = None) /\
    (forall b, ~ In b ((holes :: lh) ++ (coros :: lc) ++ (pctxs :: lp) ++ objs :: flat_map (fun o => o :: vmas_of o :: vs o ++ patches_of o :: ps o) os) -> h' b = h b).
Proof. exact process_free_all. Qed.
Print Assumptions C122_all_freed_once.

(** One gap, no coroutine, one context, two objects, the first with two areas, the second
    with one area and a patch *)
Definition self (a : Z) : option node := Some {| nx := a; pv := a |}.
Definition ex_proc : heap := fun a =>
  if a =? 1 then Some {| nx := 50; pv := 50 |} else if a =? 50 then Some {| nx := 1; pv := 1 |}
  else if a =? 2 then self 2
  else if a =? 3 then Some {| nx := 60; pv := 60 |} else if a =? 60 then Some {| nx := 3; pv := 3 |}
  else if a =? 4 then Some {| nx := 70; pv := 80 |} else if a =? 70 then Some {| nx := 80; pv := 4 |} else if a =? 80 then Some {| nx := 4; pv := 70 |}
  else if a =? 71 then Some {| nx := 90; pv := 91 |} else if a =? 90 then Some {| nx := 91; pv := 71 |} else if a =? 91 then Some {| nx := 71; pv := 90 |}
  else if a =? 72 then self 72
  else if a =? 81 then Some {| nx := 92; pv := 92 |} else if a =? 92 then Some {| nx := 81; pv := 81 |}
  else if a =? 82 then Some {| nx := 93; pv := 93 |} else if a =? 93 then Some {| nx := 82; pv := 82 |}
  else if a =? 1000 then self 1000 else None.
Example C122_all_freed_once_case :
  let vs o := if o =? 70 then [90; 91] else [92] in let ps o := if o =? 70 then [] else [93] in
  NoDup ([1; 50] ++ [2] ++ [3; 60] ++ 4 :: flat_map (fun o => o :: vmas_of o :: vs o ++ patches_of o :: ps o) [70; 80]) /\
  ring ex_proc 1 [50] /\ ring ex_proc 2 [] /\ ring ex_proc 3 [60] /\ ring ex_proc 4 [70; 80] /\
  (forall o, In o [70; 80] -> ring ex_proc (vmas_of o) (vs o) /\ ring ex_proc (patches_of o) (ps o)) /\
  exists h', process_free 3 1 2 3 4 ex_proc = Ok h' /\ h' 50 = None /\ h' 82 = None /\ h' 93 = None /\ h' 4 = self 4 /\ h' 1000 = self 1000.
Proof.
  cbv zeta. split; [cbn; repeat constructor; cbn; intuition discriminate|].
  assert (ND : forall l : list Z, (fix nd l := match l with [] => true | x :: r => negb (existsb (Z.eqb x) r) && nd r end) l = true -> NoDup l).
  { induction l as [|x r IH]; intro H; constructor.
    - apply andb_prop in H as (H & _). intro J. apply Bool.negb_true_iff, Bool.not_true_iff_false in H. apply H. apply existsb_exists. exists x. split; [exact J|apply Z.eqb_refl].
    - apply IH. now apply andb_prop in H. }
  repeat match goal with
  | |- ring _ _ _ => split; [apply ND; reflexivity|]; cbn; repeat split
  | |- _ /\ _ => split
  end.
  - intros o [<-|[<-|[]]]; split; (split; [apply ND; reflexivity|]; cbn; repeat split).
  - eexists. split; [reflexivity|]. repeat split.
Qed.
