(** C155: replacing, joining and cutting linked lists. *)
From Coq Require Import Lia.
From Verif Require Import Base TextModel ListModel ListSpec ListProofs ListProperties ListMoreModel ListMoreProofs.
Open Scope list_scope.

(** list_replace: the new entry is where the old one was; the old one and all memory but the new
    entry and the list is as before. *)
Theorem C155_replace : forall h hd l1 x l2 n, ring h hd (l1 ++ x :: l2) -> h n <> None -> ~ In n (hd :: l1 ++ x :: l2) ->
  exists h', list_replace x n h = Ok h' /\ ring h' hd (l1 ++ n :: l2) /\ h' x = h x /\ forall b, b <> n -> ~ In b (hd :: l1 ++ l2) -> h' b = h b.
Proof.
  intros h hd l1 x l2 n R An Nn. destruct (replace_ring h hd l1 x l2 n R An Nn) as (h' & E & R' & O). exists h'. split; [exact E|]. split; [exact R'|]. split.
  - apply O. intros [->|I]; [apply Nn; right; apply in_or_app; right; now left|]. destruct R as (ND & _). change (hd :: l1 ++ x :: l2) with ((hd :: l1) ++ x :: l2) in ND.
    apply NoDup_remove_2 in ND. apply ND. exact I.
  - intros b Nb N. apply O. intros [->|I]; [congruence|contradiction].
Qed.
Print Assumptions C155_replace.

(** Of a head, list_replace makes the new structure the head of the list, also of an empty one. *)
Theorem C155_replace_head : forall h hd l n, ring h hd l -> h n <> None -> ~ In n (hd :: l) ->
  exists h', list_replace hd n h = Ok h' /\ ring h' n l /\ forall b, ~ In b (n :: hd :: l) -> h' b = h b.
Proof. exact replace_head_ring. Qed.
Print Assumptions C155_replace_head.

(** list_splice puts the entries of one list before those of another, list_splice_tail behind
    them, in their order; neither writes any other memory, so the head of the list they were in is
    as it was. *)
Theorem C155_splice : forall h s k hd l, ring h s k -> ring h hd l -> (forall b, In b (s :: k) -> ~ In b (hd :: l)) ->
  (exists h', list_splice s hd h = Ok h' /\ ring h' hd (k ++ l) /\ forall b, ~ In b (hd :: k ++ l) -> h' b = h b) /\
  (exists h', list_splice_tail s hd h = Ok h' /\ ring h' hd (l ++ k) /\ forall b, ~ In b (hd :: l ++ k) -> h' b = h b).
Proof. exact list_splice_ring. Qed.
Print Assumptions C155_splice.

(** __list_cut_position: the entries up to the one given are in the new list, those after it in
    the old one. *)
Theorem C155_cut : forall h hd l1 x l2 n, ring h hd (l1 ++ x :: l2) -> h n <> None -> ~ In n (hd :: l1 ++ x :: l2) ->
  exists h', list_cut_position n hd x h = Ok h' /\ ring h' n (l1 ++ [x]) /\ ring h' hd l2 /\ forall b, ~ In b (n :: hd :: l1 ++ x :: l2) -> h' b = h b.
Proof. exact cut_ring. Qed.
Print Assumptions C155_cut.

(** Cutting and joining again gives the list there was. *)
Theorem C155_cut_splice : forall h hd l1 x l2 n, ring h hd (l1 ++ x :: l2) -> h n <> None -> ~ In n (hd :: l1 ++ x :: l2) ->
  exists h1 h2, list_cut_position n hd x h = Ok h1 /\ list_splice n hd h1 = Ok h2 /\ ring h2 hd (l1 ++ x :: l2).
Proof.
  intros h hd l1 x l2 n R An Nn. destruct (cut_ring h hd l1 x l2 n R An Nn) as (h1 & E1 & R1 & R2 & _). exists h1.
  destruct (list_splice_ring h1 n (l1 ++ [x]) hd l2 R1 R2) as ((h2 & E2 & R3 & _) & _).
  - destruct R as (ND & _). change (hd :: l1 ++ x :: l2) with ((hd :: l1) ++ x :: l2) in ND. apply NoDup_app_iff in ND as (NA & NB & NC).
    inversion NB as [|? ? Nx NB2]; inversion NA as [|? ? Nh NA2]; subst. intros b [<-|I] J.
    + apply Nn. destruct J as [<-|J]; [now left|]. right. apply in_or_app. right. now right.
    + apply in_app_or in I as [I|[<-|[]]]; destruct J as [<-|J].
      * contradiction.
      * apply (NC b); now right.
      * apply (NC hd); now left.
      * contradiction.
  - exists h2. split; [exact E1|]. split; [exact E2|]. rewrite <- app_assoc in R3. exact R3.
Qed.
Print Assumptions C155_cut_splice.

(** The head of the list whose entries were put into another is not empty, and a loop over it
    never ends. *)
Theorem C155_source_refuted : exists h s k hd h', ring h s k /\ ring h hd [] /\ (forall b, In b (s :: k) -> ~ In b [hd]) /\
  list_splice s hd h = Ok h' /\ list_empty s h' = Ok false /\ forall n, for_each n s (fun _ h => Ok h) h' = Fuel.
Proof.
  set (h := fun a => if a =? 10 then Some {| nx := 100; pv := 100 |} else if a =? 100 then Some {| nx := 10; pv := 10 |} else if a =? 20 then Some {| nx := 20; pv := 20 |} else None).
  exists h, 10, [100], 20. eexists. split; [split; [repeat constructor; cbn; intuition discriminate|cbn; repeat split]|].
  split; [split; [repeat constructor; easy|cbn; repeat split]|]. split; [cbn; intuition congruence|]. split; [reflexivity|]. split; [reflexivity|].
  intros n. unfold for_each. match goal with |- context [each_from _ _ _ _ ?g] => set (h' := g) end.
  change (next 10 h') with (@Ok Z 100). cbn [rbind].
  assert (X : forall n, each_from n 10 100 (fun _ h => Ok h) h' = Fuel /\ each_from n 10 20 (fun _ h => Ok h) h' = Fuel).
  { induction n0 as [|m [I1 I2]]; [split; reflexivity|]. cbn [each_from rbind]. change (100 =? 10) with false. change (20 =? 10) with false.
    change (next 100 h') with (@Ok Z 20). change (next 20 h') with (@Ok Z 100). cbn [rbind]. rewrite I1, I2. split; reflexivity. }
  apply X.
Qed.
Print Assumptions C155_source_refuted.

(** Cutting at the head itself, nothing into the new list, leaves the new one neither empty nor a
    list. *)
Theorem C155_cut_head_refuted : exists h hd l n h', ring h hd l /\ h n <> None /\ ~ In n (hd :: l) /\
  list_cut_position n hd hd h = Ok h' /\ list_empty n h' = Ok false /\ forall k, ~ ring h' n k.
Proof.
  set (h := fun a => if a =? 10 then Some {| nx := 100; pv := 100 |} else if a =? 100 then Some {| nx := 10; pv := 10 |} else if a =? 20 then Some {| nx := 7; pv := 7 |} else None).
  exists h, 10, [100], 20. eexists. split; [split; [repeat constructor; cbn; intuition discriminate|cbn; repeat split]|].
  split; [discriminate|]. split; [cbn; intuition discriminate|]. split; [reflexivity|]. split; [reflexivity|].
  intros k (_ & L). destruct k as [|y r]; cbn in L; [destruct L as (A & _); discriminate A|]. destruct L as (A & B & _).
  assert (y = 100) as -> by (vm_compute in A; congruence). vm_compute in B. discriminate B.
Qed.
Print Assumptions C155_cut_head_refuted.

(** The hypotheses hold: three entries, one replaced; two of them cut off and put behind. *)
Example C155_case : ring ex_heap 10 ([300] ++ 200 :: [100]) /\ ex_heap 400 <> None /\ ~ In 400 [10; 300; 200; 100] /\
  (exists h', list_replace 200 400 ex_heap = Ok h' /\ for_each 9 10 (fun _ h => Ok h) h' = Ok ([300; 400; 100], h')) /\
  (exists h1 h2, list_cut_position 20 10 200 ex_heap = Ok h1 /\ for_each 9 20 (fun _ h => Ok h) h1 = Ok ([300; 200], h1) /\
     for_each 9 10 (fun _ h => Ok h) h1 = Ok ([100], h1) /\ list_splice_tail 20 10 h1 = Ok h2 /\ for_each 9 10 (fun _ h => Ok h) h2 = Ok ([100; 300; 200], h2)) /\
  exists h', list_replace 10 20 ex_heap = Ok h' /\ for_each 9 20 (fun _ h => Ok h) h' = Ok ([300; 200; 100], h').
Proof.
  split; [exact (proj1 (holds_split ex_heap [] 10 [300; 200; 100] [] ex_holds))|]. split; [discriminate|]. split; [cbn; intuition discriminate|].
  split; [eexists; split; reflexivity|]. split; [eexists _, _; repeat split|]. eexists. split; reflexivity.
Qed.
