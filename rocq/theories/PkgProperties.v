(** Properties of building a package of patches (scripts/pkgbuild). *)
From Coq Require Import String Permutation.
From Verif Require Import Base BaseProofs RbModel StorageModel StorageSpec StorageProofs StorageProperties PkgModel PkgSpec PkgProofs.
Open Scope list_scope.

(** ** C139.  Every patch of the list goes to `patch`, in the order of the list and once, up to
    the first that fails; comments and empty lines are skipped, and the last line may lack its
    newline. *)
Theorem C139_in_order T (apply : list Z -> T -> T * bool) nl l t : Forall entry_ok l ->
  patch_list_apply T apply (list_text nl l) t = Some (in_order apply (names l) t).
Proof. apply list_applied. Qed.
Print Assumptions C139_in_order.

(** Whatever is written in the list, reading it ends. *)
Theorem C139_total T (apply : list Z -> T -> T * bool) plist t : patch_list_apply T apply plist t <> None.
Proof. apply list_total. Qed.
Print Assumptions C139_total.

(** A tree that remembers the patches it was given. *)
Definition note (n : list Z) (t : list (list Z)) : list (list Z) * bool := (t ++ [n], true).
Ltac chars := repeat (apply Forall_cons || apply Forall_nil); cbn [entry_ok]; unfold blanks, name_ok, calm; repeat split; intros;
  try (cbn; discriminate); match goal with H : In _ _ |- _ => cbn in H; intuition (subst; try discriminate; auto) | _ => idtac end.
Example C139_list_case :
  let l := [Comment (str " ") (str " fixes"); Patch [] (str "a.patch") (str " "); Empty [9]; Patch (str "  ") (str "b.patch") []] in
  Forall entry_ok l /\
  patch_list_apply _ note (list_text false l) [] = Some ([str "a.patch"; str "b.patch"], [str "a.patch"; str "b.patch"], true).
Proof.
  cbv zeta. split; [|vm_compute; reflexivity].
  chars.
Qed.

(** A comment that ends in a backslash takes the next line with it: its patch is not applied,
    and nothing fails. *)
Theorem C139_backslash_refuted : exists before after,
  Forall calm after /\ after = [str "a.patch"] /\ before = str "# see C:\tmp\" /\
  patch_list_apply _ note (before ++ 10 :: concat (map (fun n => n ++ [10]) after)) [] = Some ([], [], true).
Proof.
  exists (str "# see C:\tmp\"), [str "a.patch"]. split; [chars|].
  split; [reflexivity|]. split; [reflexivity|]. vm_compute. reflexivity.
Qed.
Print Assumptions C139_backslash_refuted.

(** A patch whose name has a blank in it is refused, and the build with it, although `patch`
    would apply it. *)
Theorem C139_blank_refuted : exists n, snd (note n []) = true /\ ~ In 10 n /\ ~ In 92 n /\
  patch_list_apply _ note (n ++ [10]) [] = Some ([], [], false).
Proof.
  exists (str "a b.patch"). split; [reflexivity|]. split; [cbn; intuition discriminate|].
  split; [cbn; intuition discriminate|]. vm_compute. reflexivity.
Qed.
Print Assumptions C139_blank_refuted.

(** What a build that succeeds has done: all patches of the list applied, in order; the hook,
    the installing and - if asked for - the sanity check succeeded; what is packed is not empty,
    has no name twice, and each of its files was made from a program of the patched tree that has
    patch sections, for the build id of that program and with the id of the list; and each such
    program whose build id is its own has its file. *)
Theorem C139_made T (apply : list Z -> T -> T * bool) (k : tools T) strict override name nl l t ar :
  Forall entry_ok l -> build T apply k strict override name (list_text nl l) t = Some ar ->
  exists id t1 t2 t3, list_id name id /\ id <> [] /\ in_order apply (names l) t = (names l, t1, true) /\
    hook T k t1 = (t2, true) /\ install T k (fst (rpmbuild T k t2)) = (t3, true) /\ (strict = true -> sane T k t3 = true) /\
    ar <> [] /\ NoDup (map fst ar) /\
    (forall n c, In (n, c) ar -> exists x, eligible k override t3 x /\ n = bid_for k override t3 x ++ str ".kpatch" /\
       make T k t3 (bid_for k override t3 x) id x = Some c) /\
    (forall x, eligible k override t3 x -> exists c, make T k t3 (bid_for k override t3 x) id x = Some c /\
       ((forall y, eligible k override t3 y -> bid_for k override t3 y = bid_for k override t3 x -> y = x) ->
        In (bid_for k override t3 x ++ str ".kpatch", c) ar)).
Proof. apply build_made. Qed.
Print Assumptions C139_made.

(** A project of two programs; [bad] makes rpmbuild fail (its tree is then as before). *)
Definition prog (x : list Z) : bool := list_eqb x (str "bin/a") || list_eqb x (str "bin/b").
Definition kit (bad : bool) : tools (list (list Z)) :=
  {| rpmbuild := fun t => if bad then (t, false) else (t ++ [str "built"], true);
     hook := fun t => (t, true);
     install := fun t => (t, true);
     sane := fun _ => true;
     targets := fun _ => [str "bin/a"; str "bin/old"; str "bin/b"];
     debug_id := fun _ x => if list_eqb x (str "bin/a") then bid_a else if list_eqb x (str "bin/b") then bid_b else [];
     has_kpatch := fun _ x => prog x;
     make := fun _ b id x => Some (sample b 568 64) |}.
Definition one_patch : list entry := [Patch [] (str "a.patch") []].
Example C139_made_case :
  Forall entry_ok one_patch /\
  build _ note (kit false) true [] (str "0001.plist") (list_text true one_patch) [] =
    Some [(bid_a ++ str ".kpatch", sample bid_a 568 64); (bid_b ++ str ".kpatch", sample bid_b 568 64)] /\
  ids_differ (kit false) [] [str "a.patch"; str "built"].
Proof.
  split; [unfold one_patch; chars|].
  split; [vm_compute; reflexivity|].
  intros x y (X1 & X2 & X3) (Y1 & Y2 & Y3) E. cbn in X1, Y1.
  destruct X1 as [X|[X|[X|[]]]], Y1 as [Y|[Y|[Y|[]]]]; subst x y; try reflexivity; vm_compute in *; discriminate.
Qed.

(** When one step fails nothing is packed - rpmbuild apart. *)
Theorem C139_failed_step T (apply : list Z -> T -> T * bool) (k : tools T) strict override name id nl l t :
  Forall entry_ok l -> list_id name id ->
  let '(_, t1, ok) := in_order apply (names l) t in
  let '(t2, okh) := hook T k t1 in
  let '(t3, oki) := install T k (fst (rpmbuild T k t2)) in
  ok = false \/ okh = false \/ oki = false \/ (strict = true /\ sane T k t3 = false) \/
  (exists x, eligible k override t3 x /\ make T k t3 (bid_for k override t3 x) id x = None) \/
  id = [] \/ (forall x, ~ eligible k override t3 x) ->
  build T apply k strict override name (list_text nl l) t = None.
Proof.
  intros F LI. destruct (in_order apply (names l) t) as [[d t1] ok] eqn:Eo. destruct (hook T k t1) as [t2 okh] eqn:Eh.
  destruct (install T k (fst (rpmbuild T k t2))) as [t3 oki] eqn:Ei. intro H.
  destruct (build T apply k strict override name (list_text nl l) t) as [ar|] eqn:B; [exfalso|reflexivity].
  destruct (build_made T apply k strict override name nl l t ar F B) as (id' & u1 & u2 & u3 & I1 & I2 & I3 & I4 & I5 & I6 & I7 & I8 & I9 & I10).
  rewrite (list_id_unique name id id' LI I1) in H. rewrite Eo in I3. injection I3 as Ed Et Ek. subst u1 ok. rewrite Eh in I4. injection I4 as E2 E3. subst u2 okh.
  rewrite Ei in I5. injection I5 as E4 E5. subst u3 oki.
  destruct H as [H|[H|[H|[(H1 & H2)|[(x & X & M)|[H|H]]]]]]; try discriminate H.
  - rewrite (I6 H1) in H2. discriminate H2.
  - destruct (I10 x X) as (c & Mc & _). rewrite M in Mc. discriminate Mc.
  - contradiction.
  - destruct ar as [|[n c] ar]; [contradiction|]. destruct (I9 n c (or_introl eq_refl)) as (x & X & _). exact (H x X).
Qed.
Print Assumptions C139_failed_step.

(** rpmbuild fails - the tree has not been built - and patches are packed all the same, made
    from whatever the installing finds. *)
Theorem C139_rpmbuild_failure_refuted : exists k : tools (list (list Z)), exists ar,
  (forall t, snd (rpmbuild _ k t) = false /\ fst (rpmbuild _ k t) = t) /\
  build _ note k true [] (str "0001.plist") (list_text true one_patch) [] = Some ar /\ length ar = 2%nat.
Proof. exists (kit true). eexists. split; [intro t; split; reflexivity|]. split; vm_compute; reflexivity. Qed.
Print Assumptions C139_rpmbuild_failure_refuted.

(** With KP_PROJECT_BUILD_ID and two programs with patch sections one patch is lost: the last
    one takes the place of the others. *)
Theorem C139_one_id_refuted : exists override ar,
  eligible (kit false) override [str "a.patch"; str "built"] (str "bin/a") /\
  eligible (kit false) override [str "a.patch"; str "built"] (str "bin/b") /\
  build _ note (kit false) true override (str "0001.plist") (list_text true one_patch) [] = Some ar /\ length ar = 1%nat.
Proof.
  exists bid_a. eexists. split; [|split; [|split; vm_compute; reflexivity]].
  - split; [left; reflexivity|]. split; [vm_compute; discriminate|reflexivity].
  - split; [right; right; left; reflexivity|]. split; [vm_compute; discriminate|reflexivity].
Qed.
Print Assumptions C139_one_id_refuted.

(** A program with patch sections and no build id gets no patch, and the build succeeds. *)
Definition nameless : tools (list (list Z)) :=
  {| rpmbuild := rpmbuild _ (kit false); hook := hook _ (kit false); install := install _ (kit false); sane := fun _ => true;
     targets := targets _ (kit false); debug_id := fun _ x => if list_eqb x (str "bin/a") then bid_a else [];
     has_kpatch := fun _ x => prog x; make := make _ (kit false) |}.
Theorem C139_no_id_refuted : exists k : tools (list (list Z)), exists x ar,
  In x (targets _ k [str "a.patch"; str "built"]) /\ has_kpatch _ k [str "a.patch"; str "built"] x = true /\
  x <> str "bin/a" /\
  build _ note k true [] (str "0001.plist") (list_text true one_patch) [] = Some ar /\ map fst ar = [bid_a ++ str ".kpatch"].
Proof.
  exists nameless, (str "bin/b"). eexists. split; [right; right; left; reflexivity|]. split; [reflexivity|].
  split; [discriminate|]. split; vm_compute; reflexivity.
Qed.
Print Assumptions C139_no_id_refuted.

(** ** C140.  Patches packed under different build ids and unpacked into a store that was empty:
    every lookup for one of the ids, among any lookups, gives the patch packed for that id, with
    level 1 and otherwise unchanged; a lookup for any other id gives nothing.  The order the
    files come in does not matter. *)
Theorem C140_unpacked dir l files :
  Permutation files (map (fun e => (dir ++ 47 :: fst e ++ str ".kpatch", snd e)) l) -> NoDup (map fst l) ->
  (forall b c, In (b, c) l -> id_ok b /\ bytes_ok c /\ well_formed c /\ 504 <= zlen c) ->
  forall cs, Forall (fun q => c_fs q = store_fs (unpack files []) /\ id_ok (c_bid q)) cs ->
  Forall2 (fun q r =>
      (c_ok q = true -> forall c, In (c_bid q, c) l -> exists d, r = LFound (Some d) /\ leveled c 1 d) /\
      (~ In (c_bid q) (map fst l) -> r = LErr)) cs (run_loads Leaf cs).
Proof.
  intros P ND G cs Hc.
  destruct (Permutation_map_inv _ _ P) as (l' & -> & P').
  assert (ND' : NoDup (map fst l')) by (eapply Permutation_NoDup; [apply Permutation_map; exact P'|exact ND]).
  assert (I' : forall b c, In (b, c) l <-> In (b, c) l').
  { intros b c. split; apply Permutation_in; [exact P'|apply Permutation_sym; exact P']. }
  destruct (unpack_ok dir l' [] empty_ok) as (S & H & U); [intros b c Hi; apply (G b c), I', Hi|exact ND'|].
  set (f := unpack _ []) in *.
  assert (B : store_bytes f).
  { apply unpack_bytes; [|exact empty_bytes]. apply Forall_forall. intros e He. apply in_map_iff in He.
    destruct He as ([b c] & <- & Hi). cbn. apply (G b c), I', Hi. }
  pose proof (C26_lookup_independent_of_history (store_fs f) cs (store_fs_ok f B)) as L.
  assert (Hc' : Forall (fun c => c_fs c = store_fs f /\ bid_ok (c_bid c)) cs).
  { eapply Forall_impl; [|exact Hc]. intros q (Q1 & Q2 & _). split; assumption. }
  specialize (L Hc'). clear Hc'.
  revert L Hc. generalize (run_loads Leaf cs). induction cs as [|q cs IH]; intros rs L Hc; inversion L; subst; constructor.
  - inversion Hc as [|? ? (_ & Q2 & Q3) _]; subst. split.
    + intros Hok c Hi. destruct (G _ c Hi) as (_ & _ & W & Hz).
      assert (St : stored (store_fs f) (c_bid q) (set_level c 1)) by (apply held_stored; auto; apply H, I', Hi).
      match goal with H0 : _ \/ _ |- _ => destruct H0 as [(d & E & Sd)|(E & [Ef|N])] end.
      * exists d. split; [exact E|]. rewrite (stored_unique _ _ _ _ Sd St). apply set_level_leveled. exact Hz.
      * congruence.
      * destruct (N _ St).
    + intro N. destruct (U (c_bid q) Q3) as [_ UL].
      { intro Hi. apply N. apply in_map_iff in Hi. destruct Hi as ([b c] & E & Hi). cbn in E. subst b.
        apply in_map_iff. exists (c_bid q, c). split; [reflexivity|apply I'; exact Hi]. }
      match goal with H0 : _ \/ _ |- _ => destruct H0 as [(d & E & Sd)|(E & _)] end; [|exact E].
      destruct (unheld f (c_bid q) Q3 S UL d Sd).
  - apply IH; [assumption|]. inversion Hc; assumption.
Qed.
Print Assumptions C140_unpacked.

(** From the list of source patches to the tool: each program with patch sections and a build id
    of its own is given, whenever it is looked for in the store made from the package, the patch
    that was made from it. *)
Theorem C140_shipped T (apply : list Z -> T -> T * bool) (k : tools T) strict override name id nl l t ar dir files :
  list_id name id -> Forall entry_ok l -> build T apply k strict override name (list_text nl l) t = Some ar ->
  Permutation files (map (fun e => (dir ++ 47 :: fst e, snd e)) ar) ->
  exists t1 t2 t3, in_order apply (names l) t = (names l, t1, true) /\
    hook T k t1 = (t2, true) /\ install T k (fst (rpmbuild T k t2)) = (t3, true) /\
  (ids_differ k override t3 ->
   (forall x c, eligible k override t3 x -> make T k t3 (bid_for k override t3 x) id x = Some c ->
      id_ok (bid_for k override t3 x) /\ bytes_ok c /\ well_formed c /\ 504 <= zlen c) ->
   forall cs, Forall (fun q => c_fs q = store_fs (unpack files []) /\ c_ok q = true /\ id_ok (c_bid q)) cs ->
   Forall2 (fun q r => forall x, eligible k override t3 x -> c_bid q = bid_for k override t3 x ->
      exists c d, make T k t3 (bid_for k override t3 x) id x = Some c /\ r = LFound (Some d) /\ leveled c 1 d)
    cs (run_loads Leaf cs)).
Proof.
  intros LI F B P.
  destruct (build_made T apply k strict override name nl l t ar F B) as (id' & t1 & t2 & t3 & I1 & I2 & I3 & I4 & I5 & I6 & I7 & I8 & I9 & I10).
  exists t1, t2, t3. split; [exact I3|]. split; [exact I4|]. split; [exact I5|]. intros D G cs Hc. rewrite <- (list_id_unique name id id' LI I1) in *.
  assert (X : exists l0, ar = map (fun e => (fst e ++ str ".kpatch", snd e)) l0 /\
     forall b c, In (b, c) l0 -> exists x, eligible k override t3 x /\ b = bid_for k override t3 x /\
       make T k t3 (bid_for k override t3 x) id x = Some c).
  { clear - I9. induction ar as [|[n c] ar IH]; [exists []; split; [reflexivity|intros b c []]|].
    destruct IH as (l0 & -> & H0); [intros n' c' Hi; apply I9; right; exact Hi|].
    destruct (I9 n c (or_introl eq_refl)) as (x & X1 & -> & X3).
    exists ((bid_for k override t3 x, c) :: l0). split; [reflexivity|].
    intros b c' [E|Hi]; [injection E as <- <-; exists x; auto|exact (H0 b c' Hi)]. }
  destruct X as (l0 & -> & H0).
  rewrite map_map in P. cbn [fst snd] in P.
  assert (ND : NoDup (map fst l0)).
  { rewrite map_map in I8. cbn [fst] in I8. rewrite <- (map_map fst (fun b => b ++ str ".kpatch")) in I8. exact (NoDup_map_inv _ _ I8). }
  assert (G0 : forall b c, In (b, c) l0 -> id_ok b /\ bytes_ok c /\ well_formed c /\ 504 <= zlen c).
  { intros b c Hi. destruct (H0 b c Hi) as (x & X1 & -> & X3). exact (G x c X1 X3). }
  assert (Hc' : Forall (fun q => c_fs q = store_fs (unpack files []) /\ id_ok (c_bid q)) cs).
  { eapply Forall_impl; [|exact Hc]. intros q (Q1 & _ & Q2). split; assumption. }
  pose proof (C140_unpacked dir l0 files P ND G0 cs Hc') as R.
  revert R Hc. generalize (run_loads Leaf cs). clear - I10 D. induction cs as [|q cs IH]; intros rs R Hc; inversion R; subst; constructor.
  - intros x X1 X2. destruct (I10 x X1) as (c & M & Hi0). assert (Hi : In _ _) by (apply Hi0; intros z Y1 Y2; exact (D z x Y1 X1 Y2)). inversion Hc as [|? ? (_ & Q & _) _]; subst.
    apply in_map_iff in Hi. destruct Hi as ([b c'] & E & Hi). cbn [fst snd] in E. injection E as E ->.
    apply app_inv_tail in E. subst b.
    match goal with H1 : _ /\ (~ In _ _ -> _) |- _ => destruct (proj1 H1 Q c) as (d & Er & Ld) end; [rewrite X2; exact Hi|].
    exists c, d. split; [exact M|]. split; assumption.
  - apply IH; [assumption|]. inversion Hc; assumption.
Qed.
Print Assumptions C140_shipped.

Lemma id_a : id_ok bid_a.
Proof. split; [exact bid_a_ok|]. vm_compute. intuition discriminate. Qed.
Lemma id_b : id_ok bid_b.
Proof. split; [exact bid_b_ok|]. vm_compute. intuition discriminate. Qed.
Definition shipped : list (list Z * list Z) :=
  [(str "/tmp/x/p/" ++ bid_b ++ str ".kpatch", sample bid_b 568 64); (str "/tmp/x/p/" ++ bid_a ++ str ".kpatch", sample bid_a 568 64)].
Example C140_case :
  let l := [(bid_a, sample bid_a 568 64); (bid_b, sample bid_b 568 64)] in
  Permutation shipped (map (fun e => (str "/tmp/x/p" ++ 47 :: fst e ++ str ".kpatch", snd e)) l) /\ NoDup (map fst l) /\
  (forall b c, In (b, c) l -> id_ok b /\ bytes_ok c /\ well_formed c /\ 504 <= zlen c) /\
  map (fun r => match r with LFound (Some d) => zlen d | LErr => -1 | _ => -2 end)
    (run_loads Leaf (map (fun b => {| c_fs := store_fs (unpack shipped []); c_ok := true; c_bid := b |}) [bid_b; bid_a; str "cc"; bid_b]))
   = [568; 568; -1; 568].
Proof.
  cbv zeta. split; [apply perm_swap|]. split.
  - repeat constructor; [|intros []]. vm_compute. intuition discriminate.
  - split; [|vm_compute; reflexivity].
    intros b c [E|[E|[]]]; injection E as <- <-.
    + split; [exact id_a|]. split; [apply bytes_ok_forallb; vm_compute; reflexivity|]. split; [exact (proj1 samples_wf)|vm_compute; discriminate].
    + split; [exact id_b|]. split; [apply bytes_ok_forallb; vm_compute; reflexivity|]. split; [exact (proj2 samples_wf)|vm_compute; discriminate].
Qed.

(** The premises about what kpatch_make gives hold of the project above. *)
Example C140_shipped_case : forall x c, eligible (kit false) [] [str "a.patch"; str "built"] x ->
  make _ (kit false) [str "a.patch"; str "built"] (bid_for (kit false) [] [str "a.patch"; str "built"] x) (str "0001") x = Some c ->
  id_ok (bid_for (kit false) [] [str "a.patch"; str "built"] x) /\ bytes_ok c /\ well_formed c /\ 504 <= zlen c.
Proof.
  intros x c (X1 & X2 & X3) M. destruct X1 as [X|[X|[X|[]]]]; subst x; try (vm_compute in X3; discriminate X3);
  cbn [make kit] in M; apply some_inj in M; subst c.
  - split; [exact id_a|]. split; [apply bytes_ok_forallb; vm_compute; reflexivity|]. split; [exact (proj1 samples_wf)|vm_compute; discriminate].
  - split; [exact id_b|]. split; [apply bytes_ok_forallb; vm_compute; reflexivity|]. split; [exact (proj2 samples_wf)|vm_compute; discriminate].
Qed.
