From Coq Require Import String.
From Verif Require Import Base BaseProofs StorageModel PkgModel PkgProofs InstModel InstSpec InstProofs BackModel BackProofs.
Open Scope list_scope.

(** Afterwards each program listed is, where it was built, the one of the original package, if no other is listed for that place; nothing else has changed. *)
Theorem C153_originals : forall l src dest r, pairs_ok l -> prepare_test (files_text l) src dest = Some r ->
  (forall b i, installs l b i -> (forall b' i', installs l b' i' -> no_slashes b' = no_slashes b -> i' = i) ->
     src (no_slashes i) <> None /\ get (no_slashes b) r = src (no_slashes i)) /\
  (forall n, (forall b i, installs l b i -> no_slashes b <> n) -> get n r = get n dest).
Proof.
  intros l src dest r OK H. unfold prepare_test in H. rewrite (split_pairs l OK) in H. fold (pair_words l) in H. split.
  - intros b i I U. destruct (src (no_slashes i)) as [c|] eqn:S.
    + split; [discriminate|]. apply (back_has src l dest r _ c H).
      * intros b' i' I' E. rewrite (U b' i' I' E). exact S.
      * left. exists b, i. split; [exact I|reflexivity].
    + exfalso. assert (N : install_back src (pair_words l) dest = None) by (apply back_fails; exists b, i; split; [exact I|exact S]). congruence.
  - intros n Q. exact (back_other src l dest r n H Q).
Qed.
Print Assumptions C153_originals.

(** It fails exactly if one of the programs is not in the original package; then the test is not run *)
Theorem C153_missing : forall l src dest, pairs_ok l ->
  (prepare_test (files_text l) src dest = None <-> exists b i, installs l b i /\ src (no_slashes i) = None).
Proof. intros l src dest OK. unfold prepare_test. rewrite (split_pairs l OK). apply back_fails. Qed.
Print Assumptions C153_missing.

(** The two directions undo each other: what was installed from a build and is put back is what was built *)
Theorem C153_round_trip : forall l src built patched tree dest r, pairs_ok l ->
  (forall b i b' i', installs l b i -> installs l b' i' -> (no_slashes b = no_slashes b' <-> no_slashes i = no_slashes i')) ->
  (forall b i b' i', installs l b i -> installs l b' i' -> no_slashes b = no_slashes b' -> b = b' /\ i = i') ->
  install_generic (files_text l) src built patched = Some tree ->
  prepare_test (files_text l) (fun n => get n tree) dest = Some r ->
  forall b i, installs l b i -> src (no_slashes b) <> None /\ get (no_slashes b) r = src (no_slashes b).
Proof.
  intros l src built patched tree dest r OK U V H P b i I. unfold install_generic in H. rewrite (split_pairs l OK) in H.
  destruct (install_files src (concat (map (fun e => [fst e; snd e]) l)) []) as [t|] eqn:E; [|discriminate H]. destruct (check_missing _ _ _); [|discriminate H]. apply some_inj in H. subst t.
  destruct (install_spec src l [] tree (NoDup_nil _) E) as (_ & _ & R & _). destruct (R b i I) as (c & S & G).
  assert (G' : get (no_slashes i) tree = Some c).
  { apply G. intros b' i' I' Ei. exact (proj1 (V b' i' b i I' I (proj2 (U b' i' b i I' I) Ei))). }
  rewrite S. split; [discriminate|]. destruct (C153_originals l _ dest r OK P) as [Q _]. destruct (Q b i I) as [_ K].
  - intros b' i' I' Eb. exact (proj2 (V b' i' b i I' I Eb)).
  - rewrite K. exact G'.
Qed.
Print Assumptions C153_round_trip.

Definition L : pairs := [(str "/server", str "/usr/sbin/server"); (str "/lib/a.so", str "/usr/lib/a.so"); (str "/helper", str "IGNORE")].
Definition ORIG (n : list Z) : option (list Z) := if list_eqb n (str "usr/sbin/server") then Some (str "s") else if list_eqb n (str "usr/lib/a.so") then Some (str "a") else None.
Definition BUILT : list (list Z * list Z) := [(str "server", str "patched"); (str "helper", str "h")].
Lemma L_ok : pairs_ok L.
Proof.
  intros b i [H|[H|[H|[]]]]; injection H; intros; subst; (split; (split; [discriminate|])); intros c I; cbn in I; repeat (destruct I as [<-|I]; [repeat split; discriminate|]); destruct I.
Qed.
Example C153_case : pairs_ok L /\ prepare_test (files_text L) ORIG BUILT = Some [(str "server", str "s"); (str "helper", str "h"); (str "lib/a.so", str "a")] /\
  prepare_test (files_text L) (fun _ => None) BUILT = None.
Proof. split; [exact L_ok|]. split; vm_compute; reflexivity. Qed.

(** A program that is patched but listed with IGNORE stays the one of the build: the test does not run the original *)
Theorem C153_ignored_refuted : exists l src dest r b, pairs_ok l /\ In (b, str "IGNORE") l /\ prepare_test (files_text l) src dest = Some r /\
  get (no_slashes b) dest <> None /\ get (no_slashes b) r = get (no_slashes b) dest /\ (forall n, src n <> get (no_slashes b) r).
Proof.
  exists L, ORIG, BUILT. eexists. exists (str "/helper"). split; [exact L_ok|]. split; [right; right; left; reflexivity|]. split; [vm_compute; reflexivity|].
  split; [vm_compute; discriminate|]. split; [vm_compute; reflexivity|].
  intros n H. change (get (no_slashes (str "/helper")) _) with (Some (str "h")) in H. unfold ORIG in H.
  destruct (list_eqb n (str "usr/sbin/server")); [discriminate H|]. destruct (list_eqb n (str "usr/lib/a.so")); discriminate H.
Qed.
Print Assumptions C153_ignored_refuted.

(** A word left over at the end of the list fails too *)
Theorem C153_left_over : forall l w src dest, pairs_ok l -> plain_word w -> prepare_test (files_text l ++ w) src dest = None.
Proof.
  intros l w src dest OK (Nw & Hw). unfold prepare_test.
  assert (E : split_words [] (files_text l ++ w) = pair_words l ++ [w]).
  { unfold files_text. cbn [app split_words]. change (ws 10) with true. cbv iota.
    induction l as [|[b i] l IH].
    - cbn [map concat app pair_words]. assert (T : forall cur, cur ++ w <> [] -> split_words cur w = [cur ++ w]).
      { clear Nw. induction w as [|x w IH]; intros cur N; cbn [split_words].
        - rewrite app_nil_r in *. destruct cur; [contradiction|reflexivity].
        - rewrite (ws_false x (Hw x (or_introl eq_refl))). rewrite IH; [rewrite <- app_assoc; reflexivity|intros y Hy; apply Hw; right; exact Hy|].
          intro E. apply app_eq_nil in E. destruct E as [E _]. destruct cur; discriminate E. }
      apply (T []). exact Nw.
    - cbn [map concat]. unfold pair_text at 1. cbn [fst snd]. destruct (OK b i (or_introl eq_refl)) as ((Nb & Hb) & (Ni & Hi)).
      rewrite <- !app_assoc. cbn [app]. rewrite split_word; [|exact Hb|exact Nb|reflexivity].
      rewrite pair_cons. cbn [app]. f_equal. rewrite <- !app_assoc. cbn [app]. rewrite split_word; [|exact Hi|exact Ni|reflexivity].
      cbn [app]. f_equal. apply IH. intros b' i' H'. apply OK. right. exact H'. }
  rewrite E. clear E. revert dest. induction l as [|[b i] l IH]; intros dest; [reflexivity|]. rewrite pair_cons. cbn [app install_back].
  assert (OK' : pairs_ok l) by (intros b' i' H'; apply OK; right; exact H').
  destruct (list_eqb i (str "IGNORE")); [apply IH, OK'|]. destruct (src (no_slashes i)); [apply IH, OK'|reflexivity].
Qed.
Print Assumptions C153_left_over.
Example C153_left_over_case : prepare_test (files_text L ++ str "/tool") ORIG BUILT = None.
Proof. vm_compute. reflexivity. Qed.
