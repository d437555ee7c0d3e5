(** C156: the loops over lists that start in the middle or go backwards. *)
From Coq Require Import Lia.
From Verif Require Import Base TextModel ListModel ListSpec ListProofs ListProperties ListLoopModel ListLoopProofs.
Open Scope list_scope.

(** The loops started at an entry see the entries behind it, or before it, in order; the entry
    itself is seen by those called from and not by those called continue. *)
Theorem C156_middle : forall h hd l1 x l2 n, ring h hd (l1 ++ x :: l2) -> (length (l1 ++ x :: l2) < n)%nat ->
  for_each_continue n x hd (fun _ h => Ok h) h = Ok (l2, h) /\
  for_each_continue_reverse n x hd (fun _ h => Ok h) h = Ok (rev l1, h) /\
  for_each_from n x hd (fun _ h => Ok h) h = Ok (x :: l2, h) /\
  for_each_from_reverse n x hd (fun _ h => Ok h) h = Ok (x :: rev l1, h).
Proof.
  intros h hd l1 x l2 n (ND & L) F. rewrite app_length in F. cbn [length] in F. apply linked_app in L as (L1 & L2).
  inversion ND as [|? ? Nh _]; subst.
  assert (N1 : ~ In hd l1) by (intro I; apply Nh, in_or_app; now left). assert (N2 : ~ In hd l2) by (intro I; apply Nh, in_or_app; right; now right).
  assert (Nx : (x =? hd) = false) by (apply Z.eqb_neq; intros ->; apply Nh, in_or_app; right; now left).
  pose proof (linked_nxt h x l2 hd L2) as En. pose proof (linked_prv_last h hd l1 x L1) as Ep.
  unfold for_each_continue, for_each_continue_reverse, for_each_from, for_each_from_reverse. rewrite (next_ok _ _ _ En), (prev_ok _ _ _ Ep). cbn [rbind].
  destruct n as [|n]; [lia|].
  split; [apply (each_from_spec h hd l2 x); auto; lia|]. split; [apply (each_back_spec h hd l1 x); auto; lia|].
  cbn [each_from each_back]. rewrite Nx. cbn [rbind]. rewrite (next_ok _ _ _ En), (prev_ok _ _ _ Ep). cbn [rbind].
  rewrite (each_from_spec h hd l2 x n L2 N2 ltac:(lia) _ En), (each_back_spec h hd l1 x n L1 N1 ltac:(lia) _ Ep). split; reflexivity.
Qed.
Print Assumptions C156_middle.

(** Prepared with NULL they see the whole list. *)
Theorem C156_prepared : forall h hd l n, ring h hd l -> (length l < n)%nat ->
  for_each_continue n (prepare_entry 0 hd) hd (fun _ h => Ok h) h = Ok (l, h) /\
  for_each_continue_reverse n (prepare_entry 0 hd) hd (fun _ h => Ok h) h = Ok (rev l, h) /\
  forall x, x <> 0 -> prepare_entry x hd = x.
Proof.
  intros h hd l n R F. change (prepare_entry 0 hd) with hd. split; [exact (for_each_ring h hd l n R F)|]. split; [exact (for_each_reverse_ring h hd l n R F)|].
  intros x Nx. unfold prepare_entry. rewrite (proj2 (Z.eqb_neq _ _) Nx). reflexivity.
Qed.
Print Assumptions C156_prepared.

(** The loops called safe stand a body that takes out and frees the entry it is at: each sees all
    the entries it should, those kept are left in order, the entries before the start too. *)
Theorem C156_safe : forall h hd l1 x l2 (keep : Z -> bool) n, ring h hd (l1 ++ x :: l2) -> (length (l1 ++ x :: l2) < n)%nat ->
  let body := fun x g => if keep x then Ok g else del_free x g in
  (exists h', for_each_safe_continue n x hd body h = Ok (l2, h') /\ ring h' hd (l1 ++ x :: filter keep l2)) /\
  (exists h', for_each_safe_from n x hd body h = Ok (x :: l2, h') /\ ring h' hd (l1 ++ filter keep (x :: l2))).
Proof.
  intros h hd l1 x l2 keep n R F body. rewrite app_length in F. cbn [length] in F. pose proof R as (_ & L). apply linked_app in L as (_ & L2).
  pose proof (linked_nxt h x l2 hd L2) as En. unfold for_each_safe_continue, for_each_safe_from. rewrite (next_ok _ _ _ En). cbn [rbind]. split.
  - assert (R' : ring h hd ((l1 ++ [x]) ++ l2)) by (rewrite <- app_assoc; exact R). rewrite (next_ok _ _ _ (first_next h hd (l1 ++ [x]) l2 R')). cbn [rbind].
    destruct (each_safe_spec (fun _ => True) hd keep body _ (del_free_body hd keep _) l2 (l1 ++ [x]) n h I R' ltac:(intros z J; exact J) ltac:(lia)) as (h' & E & _ & Q).
    exists h'. rewrite <- app_assoc in Q. split; [exact E|exact Q].
  - destruct (each_safe_spec (fun _ => True) hd keep body _ (del_free_body hd keep _) (x :: l2) l1 n h I R ltac:(intros z J; exact J) ltac:(cbn [length]; lia)) as (h' & E & _ & Q).
    exists h'. split; [exact E|exact Q].
Qed.
Print Assumptions C156_safe.
Theorem C156_safe_reverse : forall h hd l (keep : Z -> bool) n, ring h hd l -> (length l < n)%nat ->
  exists h', for_each_safe_reverse n hd (fun x g => if keep x then Ok g else del_free x g) h = Ok (rev l, h') /\ ring h' hd (filter keep l).
Proof.
  intros h hd l keep n R F. pose proof R as (_ & L). unfold for_each_safe_reverse. rewrite (prev_ok _ _ _ (linked_prv_last h hd l hd L)). cbn [rbind].
  assert (E : prv h (last l hd) = Some (match l with [] => last [] hd | _ => last (removelast l) hd end)).
  { destruct l as [|y r _] using rev_ind; [exact (linked_prv_last h hd [] hd L)|]. rewrite last_last, removelast_last. apply linked_app in L as (L & _).
    rewrite (linked_prv_last h hd r y L). destruct r; reflexivity. }
  rewrite (prev_ok _ _ _ E). cbn [rbind].
  destruct (each_safe_back_spec (fun _ => True) hd keep _ _ (del_free_body hd keep l) l [] n h I ltac:(rewrite app_nil_r; exact R) ltac:(rewrite app_nil_r; intros z J; exact J) F) as (h' & A & _ & B).
  rewrite app_nil_r in B. exists h'. split; [exact A|exact B].
Qed.
Print Assumptions C156_safe_reverse.

(** The first entry, or NULL of an empty list; both tests for emptiness agree. *)
Theorem C156_first : forall h hd l, ring h hd l ->
  first_entry_or_null hd h = Ok (match l with [] => 0 | x :: _ => x end) /\
  list_empty_careful hd h = Ok (match l with [] => true | _ => false end) /\ list_empty_careful hd h = list_empty hd h.
Proof.
  intros h hd l (ND & L). pose proof (linked_nxt h hd l hd L) as En. pose proof (linked_prv_last h hd l hd L) as Ep.
  unfold first_entry_or_null, list_empty_careful, list_empty. rewrite (next_ok _ _ _ En), (prev_ok _ _ _ Ep). cbn [rbind].
  destruct l as [|x r]; cbn [List.hd last]; [rewrite Z.eqb_refl; auto|]. rewrite (proj2 (Z.eqb_neq x hd)); [auto|]. intros ->. inversion ND as [|? ? N _]. apply N. now left.
Qed.
Print Assumptions C156_first.

(** The entry a safe loop has stored as the next one must not be taken out by the body: the loop
    then reads freed memory, as long as list_safe_reset_next (511-512) is not used. *)
Theorem C156_next_freed_refuted : exists h hd l x y, ring h hd l /\ In x l /\ In y l /\ x <> y /\
  forall n, (2 < n)%nat -> for_each_safe n hd (fun z g => if z =? x then del_free y g else Ok g) h = Crash.
Proof.
  exists ex_heap, 10, [300; 200; 100], 300, 200. split; [exact (proj1 (holds_split ex_heap [] 10 [300; 200; 100] [] ex_holds))|].
  split; [now left|]. split; [right; now left|]. split; [discriminate|]. intros n H. destruct n as [|[|n]]; try lia. reflexivity.
Qed.
Print Assumptions C156_next_freed_refuted.

(** The hypotheses hold. *)
Example C156_case : ring ex_heap 10 ([300] ++ 200 :: [100]) /\
  for_each_continue 9 200 10 (fun _ h => Ok h) ex_heap = Ok ([100], ex_heap) /\ for_each_from_reverse 9 200 10 (fun _ h => Ok h) ex_heap = Ok ([200; 300], ex_heap) /\
  (exists h', for_each_safe_from 9 200 10 (fun x g => if x =? 200 then Ok g else del_free x g) ex_heap = Ok ([200; 100], h') /\ h' 100 = None /\ for_each 9 10 (fun _ h => Ok h) h' = Ok ([300; 200], h')) /\
  exists h', for_each_safe_reverse 9 10 del_free ex_heap = Ok ([100; 200; 300], h') /\ list_empty 10 h' = Ok true.
Proof.
  split; [exact (proj1 (holds_split ex_heap [] 10 [300; 200; 100] [] ex_holds))|]. split; [reflexivity|]. split; [reflexivity|].
  split; [eexists; repeat split|]. eexists. split; reflexivity.
Qed.
