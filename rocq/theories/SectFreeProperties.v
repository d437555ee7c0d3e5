(** C161: the lifetime of the descriptions of sections in kpatch_gensrc. *)
From Coq Require Import Lia.
From Verif Require Import Base SectFreeModel SectFreeProofs.
Open Scope list_scope.

(** Whatever section directives the two files have: no description is read after it
    was freed, no predefined one is freed, and none is freed twice. *)
Theorem C161_no_bad_free : forall names text ks0 ks1,
  gensrc_sections names text ks0 ks1 <> Bad.
Proof.
  intros. destruct (gensrc_spec names text ks0 ks1) as [E|(m & n0 & n1 & E & _)];
    rewrite E; discriminate.
Qed.

(** When the program ends, each description that was made was freed, once: one for
    each directive that names a section, goes back or repeats. *)
Theorem C161_all_freed : forall names text ks0 ks1 m,
  gensrc_sections names text ks0 ks1 = Fine m ->
  NoDup (freed m) /\
  (forall id, In id (freed m) <-> (id < length (prevs m))%nat) /\
  length (freed m) =
    length (filter (fun k => match k with KNone => false | _ => true end) (ks0 ++ ks1)).
Proof.
  intros names text ks0 ks1 m H.
  destruct (gensrc_spec names text ks0 ks1) as [E|(m' & n0 & n1 & E & L & F & N0 & N1)];
    rewrite E in H; [discriminate|]. injection H as ->. rewrite F, L.
  assert (R : rev (seq n0 n1) ++ rev (seq 0 n0) = rev (seq 0 (n0 + n1))).
  { rewrite <- rev_app_distr, seq_app. reflexivity. }
  rewrite R. split; [apply NoDup_rev, seq_NoDup|]. split.
  - intros id. rewrite <- in_rev, in_seq. lia.
  - rewrite rev_length, seq_length, filter_app, app_length. congruence.
Qed.

(** Reading a file leaves all earlier descriptions as they were: it frees none, and
    its own first line has the predefined .text. *)
Theorem C161_read : forall names text ks m secs,
  init_sects (mkMem [] [] (statics 0 names)) text ks = Fine (m, secs) ->
  freed m = [] /\ hd_error secs = Some (Static text) /\ length secs = S (length ks) /\
  (forall p, In p secs -> live m p = true).
Proof.
  intros names text ks m secs. unfold init_sects.
  set (m0 := mkMem [] [] (statics 0 names)).
  assert (I0 : inv m0).
  { split; [reflexivity|]. split; [constructor|]. apply statics_ok. }
  assert (G : forall ks m1 cur m2 ps, inv m1 -> ok_ptr m1 cur ->
     sect_lines m1 cur ks = Fine (m2, ps) ->
     inv m2 /\ length ps = length ks /\ (length (prevs m1) <= length (prevs m2))%nat /\
     Forall (ok_ptr m2) ps).
  { clear. induction ks as [|k ks IH]; intros m1 cur m2 ps I C; cbn [sect_lines].
    - intros [= <- <-]. auto.
    - destruct (line_spec m1 cur k I C) as [E|[[_ E]|(m3 & E & I3 & P3)]];
        rewrite E; cbn [bind]; [discriminate| |].
      + destruct (sect_lines m1 cur ks) as [[m4 qs]| |] eqn:S4; cbn [bind]; try discriminate.
        intros [= <- <-]. destruct (IH _ _ _ _ I C S4) as (A & B & D & F).
        split; [exact A|]. split; [cbn; lia|]. split; [exact D|].
        constructor; [|exact F]. revert C. apply ok_more. exact D.
      + assert (L : length (prevs m3) = S (length (prevs m1)))
          by (rewrite P3, app_length; cbn; lia).
        assert (C3 : ok_ptr m3 (Heap (length (prevs m1)))) by (cbn; lia).
        destruct (sect_lines m3 _ ks) as [[m4 qs]| |] eqn:S4; cbn [bind]; try discriminate.
        intros [= <- <-]. destruct (IH _ _ _ _ I3 C3 S4) as (A & B & D & F).
        split; [exact A|]. split; [cbn; lia|]. split; [lia|].
        constructor; [|exact F]. revert C3. apply ok_more. exact D. }
  destruct (sect_lines m0 (Static text) ks) as [[m' ps]| |] eqn:E; cbn [bind]; try discriminate.
  intros [= <- <-]. destruct (G ks m0 (Static text) m' ps I0 I E) as (A & B & _ & F).
  split; [apply A|]. split; [reflexivity|]. split; [cbn; lia|].
  intros p [<-|P]; [reflexivity|]. apply ok_live; [exact A|].
  rewrite Forall_forall in F. apply F. exact P.
Qed.

(** The order matters: had the first file been closed before the second was read, a
    section that both name would be looked up in freed memory, because free_sections
    leaves its descriptions in the tree. *)
Theorem C161_order_matters : exists names text ks0 ks1,
  (let! (m0, s0) := init_sects (mkMem [] [] (statics 0 names)) text ks0 in
   let! m1 := free_sects m0 s0 in
   let! (m2, s1) := init_sects m1 text ks1 in
   free_sects m2 s1) = Bad.
Proof.
  exists [[1]; [2]], 0%nat, [KNamed false [3]], [KNamed false [3]]. vm_compute. reflexivity.
Qed.

(** Two files with named, new, repeated and earlier sections end well; going back in
    the first section does not. *)
Example C161_ex : exists m,
  gensrc_sections [[1]; [2]] 0
    [KNone; KNamed true [2]; KNamed false [7]; KNone; KPrev; KSame]
    [KNamed false [7]; KNone; KNamed true [1]; KPrev] = Fine m /\ length (freed m) = 7%nat.
Proof. eexists. split; vm_compute; reflexivity. Qed.
Example C161_read_ex : exists m secs,
  init_sects (mkMem [] [] (statics 0 [[1]; [2]])) 0
    [KNone; KNamed true [2]; KNamed false [7]; KNone; KPrev; KSame] = Fine (m, secs).
Proof. do 2 eexists. vm_compute. reflexivity. Qed.
Example C161_fatal : gensrc_sections [[1]; [2]] 0 [KPrev] [] = Fatal.
Proof. reflexivity. Qed.

Print Assumptions C161_no_bad_free.
Print Assumptions C161_all_freed.
Print Assumptions C161_read.
Print Assumptions C161_order_matters.
