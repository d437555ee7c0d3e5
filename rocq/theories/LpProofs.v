From Coq Require Import String.
From Verif Require Import Base StorageModel TextModel LpModel.
Open Scope list_scope.

(** * Files *)
Lemma teq_spec a b : reflect (a = b) (teq a b).
Proof. unfold teq. destruct (list_eq_dec Z.eq_dec a b); constructor; assumption. Qed.
Lemma teq_refl a : teq a a = true.
Proof. destruct (teq_spec a a); congruence. Qed.
Lemma teq_ne a b : a <> b -> teq a b = false.
Proof. destruct (teq_spec a b); congruence. Qed.
Lemma lookup_unlink p q f : lookup q (unlink p f) = if teq q p then None else lookup q f.
Proof.
  unfold unlink. induction f as [|[r n] f IH]; cbn [filter lookup fst]; [destruct (teq q p); reflexivity|].
  destruct (teq_spec r p) as [->|N]; cbn [negb]; [rewrite IH; destruct (teq_spec q p) as [->|M]; [reflexivity|rewrite teq_ne by congruence; reflexivity]|].
  cbn [lookup]. rewrite IH. destruct (teq_spec r q) as [->|M]; [rewrite (teq_ne q p) by congruence; reflexivity|reflexivity].
Qed.
Lemma lookup_store p n q f : lookup q (store p n f) = if teq q p then Some n else lookup q f.
Proof.
  unfold store. cbn [lookup]. rewrite lookup_unlink. destruct (teq_spec p q) as [->|N]; [rewrite teq_refl; reflexivity|rewrite (teq_ne q p) by congruence; reflexivity].
Qed.
Lemma lookup_relink a p q f : lookup q (symlink a p (unlink p f)) = if teq q p then Some (Link a) else lookup q f.
Proof.
  unfold symlink. rewrite lookup_unlink, teq_refl. cbn [lookup]. rewrite lookup_unlink. destruct (teq_spec p q) as [->|N]; [rewrite teq_refl; reflexivity|rewrite (teq_ne q p) by congruence; reflexivity].
Qed.
Lemma lookup_mv a b q f n : lookup a f = Some n -> lookup q (mv a b f) = if teq q b then Some n else if teq q a then None else lookup q f.
Proof. intros E. unfold mv. rewrite E, lookup_store, lookup_unlink. reflexivity. Qed.
Lemma in_names p f : In p (map fst f) <-> lookup p f <> None.
Proof.
  induction f as [|[q n] f IH]; cbn [map lookup fst In]; [tauto|]. destruct (teq_spec q p) as [->|N]; [split; [discriminate|auto]|]. rewrite <- IH. split; [intros [H|H]; [congruence|exact H]|auto].
Qed.

(** * Names of backups *)
Lemma base_backup p : p <> [] -> base_of (p ++ BACKUP) = Some p.
Proof.
  intros N. unfold base_of. rewrite rev_app_distr. change (rev BACKUP) with (rev ORIG ++ [48; 46]). rewrite <- app_assoc.
  rewrite <- (rev_length ORIG). rewrite firstn_app, Nat.sub_diag, firstn_all, firstn_O, app_nil_r, teq_refl.
  rewrite skipn_app, Nat.sub_diag, skipn_all. cbn [skipn app drop_digits]. change (is_digit 48) with true. cbn iota. change (is_digit 46) with false. cbn iota.
  change (46 =? 46) with true. unfold zlen. cbn [andb List.length]. rewrite (proj2 (Z.ltb_lt _ _)) by lia. rewrite teq_ne by (intros E; apply N; rewrite <- (rev_involutive p), E; reflexivity).
  cbn [andb negb]. rewrite rev_involutive. reflexivity.
Qed.
Lemma backup_inj p q : p ++ BACKUP = q ++ BACKUP -> p = q.
Proof. apply app_inv_tail. Qed.
Lemma plain_backup p : plain p = true -> plain (p ++ BACKUP) = true.
Proof. unfold plain. intros H. rewrite forallb_app, H. reflexivity. Qed.
Lemma bases_in b names : In b (bases names) <-> exists o, In o names /\ base_of o = Some b.
Proof.
  unfold bases. rewrite nodup_In, in_flat_map. split; intros (o & I & H); exists o; (split; [exact I|]).
  - destruct (base_of o) as [b'|]; [destruct H as [->|[]]; reflexivity|destruct H].
  - rewrite H. left. reflexivity.
Qed.
Lemma bases_nodup names : NoDup (bases names).
Proof. apply NoDup_nodup. Qed.
Lemma version_only b names : In (b ++ BACKUP) names -> b <> [] -> (forall o, In o names -> base_of o = Some b -> o = b ++ BACKUP) -> version b names = Some (b ++ BACKUP).
Proof.
  intros I N H. unfold version.
  assert (G : forall l v, (forall o, In o l -> base_of o = Some b -> o = b ++ BACKUP) -> (v = None \/ v = Some (b ++ BACKUP)) -> (v = Some (b ++ BACKUP) \/ In (b ++ BACKUP) l) ->
    fold_left (fun v o => match base_of o with Some b' => if teq b' b then least o v else v | None => v end) l v = Some (b ++ BACKUP)).
  { induction l as [|o l IH]; intros v Hl Hv Hi; cbn [fold_left]; [destruct Hi as [->|[]]; reflexivity|].
    assert (V : match base_of o with Some b' => if teq b' b then least o v else v | None => v end = v \/ (o = b ++ BACKUP /\ match base_of o with Some b' => if teq b' b then least o v else v | None => v end = Some (b ++ BACKUP))).
    { destruct (base_of o) as [b'|] eqn:E; [|auto]. destruct (teq_spec b' b) as [->|M]; [|auto]. right. pose proof (Hl o (or_introl eq_refl) E) as ->. split; [reflexivity|].
      destruct Hv as [->| ->]; cbn [least]; [reflexivity|]. destruct (0 <? _); reflexivity. }
    apply IH; [intros o' I'; apply Hl; right; exact I'| |].
    - destruct V as [V|[_ V]]; rewrite V; auto.
    - destruct Hi as [Hi|[Hi|Hi]]; [destruct V as [V|[_ V]]; rewrite V; auto| |auto]. subst o. destruct V as [V|[_ V]]; [|rewrite V; auto].
      rewrite (base_backup b N), teq_refl in *. destruct Hv as [->| ->]; cbn [least] in *; [auto|]. destruct (0 <? _); auto. }
  apply G; auto.
Qed.
(** Without backups nothing is restored. *)
Lemma restore_none f : (forall p, lookup p f <> None -> base_of p = None) -> restore_origs f = f.
Proof.
  intros H. unfold restore_origs. replace (bases (map fst f)) with (@nil text); [reflexivity|]. symmetry.
  destruct (bases (map fst f)) as [|b bs] eqn:E; [reflexivity|]. assert (I : In b (bases (map fst f))) by (rewrite E; left; reflexivity).
  apply bases_in in I. destruct I as (o & I & B). apply in_names in I. rewrite (H o I) in B. discriminate.
Qed.
(** With the backups of [eds], the old files are put back. *)
Section Restore.
Variable eds : list text.
Variable f : fs.
Hypothesis ne : forall p, In p eds -> p <> [] /\ base_of p = None /\ plain p = true.
Hypothesis backs : forall p, In p eds -> lookup (p ++ BACKUP) f <> None.
Hypothesis only : forall o b, lookup o f <> None -> base_of o = Some b -> In b eds /\ o = b ++ BACKUP.
Lemma restore_backs q : lookup q (restore_origs f) =
  if existsb (fun p => teq p q) eds then lookup (q ++ BACKUP) f
  else if existsb (fun p => teq (p ++ BACKUP) q) eds then None else lookup q f.
Proof.
  unfold restore_origs. set (names := map fst f).
  assert (BI : forall b, In b (bases names) <-> In b eds).
  { intros b. rewrite bases_in. split.
    - intros (o & I & B). apply in_names in I. apply (only o b I B).
    - intros I. exists (b ++ BACKUP). split; [apply in_names, backs, I|apply base_backup, ne, I]. }
  assert (VI : forall b, In b eds -> version b names = Some (b ++ BACKUP)).
  { intros b I. apply version_only; [apply in_names, backs, I|apply ne, I|]. intros o Io Bo. apply in_names in Io. apply (only o b Io Bo). }
  assert (G : forall bs g, NoDup bs -> (forall b, In b bs -> In b eds) -> (forall b, In b bs -> lookup (b ++ BACKUP) g = lookup (b ++ BACKUP) f) ->
    lookup q (fold_left (fun g b => match version b names with Some o => if plain o && plain b then mv o b g else g | None => g end) bs g) =
    if existsb (fun p => teq p q) bs then lookup (q ++ BACKUP) f else if existsb (fun p => teq (p ++ BACKUP) q) bs then None else lookup q g).
  { induction bs as [|b bs IH]; intros g ND Sub Bk; cbn [fold_left existsb]; [reflexivity|]. inversion ND as [|? ? Nb ND']; subst.
    destruct (ne b (Sub b (or_introl eq_refl))) as (Nn & Bb & Pb). rewrite (VI b (Sub b (or_introl eq_refl))), (plain_backup b Pb), Pb. cbn [andb].
    destruct (lookup (b ++ BACKUP) f) as [n|] eqn:Ln; [|exfalso; exact (backs b (Sub b (or_introl eq_refl)) Ln)].
    assert (Lg : lookup (b ++ BACKUP) g = Some n) by (rewrite Bk by (left; reflexivity); exact Ln).
    rewrite IH; [|exact ND'|intros b' I'; apply Sub; right; exact I'|].
    - rewrite (lookup_mv _ _ _ _ _ Lg). destruct (teq_spec q b) as [->|N1].
      + rewrite teq_refl. cbn [orb]. rewrite Ln. destruct (existsb (fun p => teq p b) bs); [reflexivity|].
        assert (X : existsb (fun p => teq (p ++ BACKUP) b) bs = false).
        { apply not_true_is_false. intros X. apply existsb_exists in X. destruct X as (p & I & T). destruct (teq_spec (p ++ BACKUP) b) as [Eb|]; [|discriminate].
          destruct (ne p (Sub p (or_intror I))) as (Np & _ & _). rewrite <- Eb, (base_backup p Np) in Bb. discriminate. }
        rewrite X. reflexivity.
      + rewrite (teq_ne b q) by congruence. cbn [orb]. destruct (existsb (fun p => teq p q) bs); [reflexivity|].
        destruct (teq_spec q (b ++ BACKUP)) as [->|N2]; [rewrite teq_refl; cbn [orb]; match goal with |- context [existsb ?g bs] => destruct (existsb g bs) end; reflexivity|]. rewrite (teq_ne (b ++ BACKUP) q) by congruence. reflexivity.
    - intros b' I'. rewrite (lookup_mv _ _ _ _ _ Lg). assert (N1 : b' <> b) by (intros ->; contradiction).
      assert (N2 : b' ++ BACKUP <> b). { intros E. destruct (ne b' (Sub b' (or_intror I'))) as (Np & _ & _). rewrite <- E, (base_backup b' Np) in Bb. discriminate. }
      rewrite (teq_ne _ _ N2), teq_ne by (intros E; apply N1, backup_inj, E). apply Bk. right. exact I'. }
  rewrite (G (bases names) f (bases_nodup _)); [|intros b I; apply BI; exact I|reflexivity].
  assert (X1 : forall g, existsb g (bases names) = existsb g eds).
  { intros g. apply eq_iff_eq_true. rewrite !existsb_exists. split; intros (b & I & T); exists b; (split; [apply BI, I|exact T]). }
  rewrite !X1. reflexivity.
Qed.
End Restore.

(** * Patching *)
Section Patching.
Variable now : Z.
Lemma patch_one_other p ed f q : q <> p -> q <> p ++ BACKUP -> lookup q (patch_one BACKUP now f (p, ed)) = lookup q f.
Proof.
  intros N1 N2. unfold patch_one. destruct (ed _); [rewrite lookup_store|rewrite lookup_unlink]; rewrite (teq_ne _ _ N1), lookup_store, (teq_ne _ _ N2); reflexivity.
Qed.
Lemma patch_one_back p ed f : lookup (p ++ BACKUP) (patch_one BACKUP now f (p, ed)) = Some (match lookup p f with Some n => n | None => File [] now end).
Proof.
  assert (N : p ++ BACKUP <> p). { intros E. apply (f_equal (@List.length Z)) in E. rewrite app_length in E. cbn in E. lia. }
  unfold patch_one. destruct (ed _); [rewrite lookup_store|rewrite lookup_unlink]; rewrite (teq_ne _ _ N), lookup_store, teq_refl; reflexivity.
Qed.
End Patching.

(** * A whole run *)
Section Whole.
Variable w : world.
Variable t : tools.
Variable cc libcare proot : text.
Variable ps : list edits.
Variable execs : list (text * text).
Variable src : text -> bool.
Variable f0 : fs.
Notation eds := (map fst (concat ps)).
Hypothesis no_backup : forall p, lookup p f0 <> None -> base_of p = None.
Hypothesis backs_src : forall p, base_of p <> None -> src p = true.
Hypothesis eds_ok : forall p, In p eds -> p <> [] /\ src p = true /\ base_of p = None /\ plain p = true /\ p <> cc /\ lookup p f0 <> None.
Hypothesis eds_once : NoDup eds.
Hypothesis quiet : forall s now f p, src p = true -> lookup p (make_ w s now f) = lookup p f /\ lookup p (install_ w s now f) = lookup p f /\ lookup p (clean_ w f) = lookup p f.
Hypothesis cc_back : base_of cc = None.
Hypothesis outs : forall o p, In (o, p) execs -> src (p ++ str ".stripped") = false /\ src (p ++ str ".kpatch") = false.
Hypothesis roots : forall b, src (proot ++ str "/" ++ b ++ str ".kpatch") = false.

(** Files of the source tree as before. *)
Definition same (f : fs) : Prop := forall p, src p = true -> p <> cc -> lookup p f = lookup p f0.
(** ... after the patches of [done]. *)
Definition patched (done : list text) (f : fs) : Prop :=
  (forall p, In p done -> lookup (p ++ BACKUP) f = lookup p f0)
  /\ (forall p, src p = true -> p <> cc -> ~ In p done -> (forall q, In q done -> p <> q ++ BACKUP) -> lookup p f = lookup p f0).
Lemma patched_nil f : patched [] f <-> same f.
Proof. split; [intros (_ & H) p S N; apply H; auto|intros H; split; [intros p []|intros p S N _ _; apply H; assumption]]. Qed.
Lemma ed_back_src p : In p eds -> src (p ++ BACKUP) = true /\ p ++ BACKUP <> cc.
Proof.
  intros I. destruct (eds_ok p I) as (N & _). split; [apply backs_src; rewrite (base_backup p N); discriminate|]. intros E. rewrite <- E, (base_backup p N) in cc_back. discriminate.
Qed.
Lemma patched_ext done f g : (forall p, In p done -> In p eds) -> (forall p, src p = true -> p <> cc -> lookup p g = lookup p f) -> patched done f -> patched done g.
Proof.
  intros Sub H (B & O). split.
  - intros p I. destruct (ed_back_src p (Sub p I)) as (S & N). rewrite (H _ S N). apply B, I.
  - intros p S N Nd Nb. rewrite (H p S N). apply O; assumption.
Qed.
Lemma restore_same f : same f -> restore_origs f = f.
Proof.
  intros H. apply restore_none. intros p L. destruct (base_of p) eqn:B; [|reflexivity]. exfalso. assert (S : src p = true) by (apply backs_src; rewrite B; discriminate).
  assert (N : p <> cc) by (intros ->; rewrite cc_back in B; discriminate). rewrite (H p S N) in L. rewrite (no_backup p L) in B. discriminate.
Qed.
Lemma restore_patched done f : NoDup done -> (forall p, In p done -> In p eds) -> patched done f -> same (restore_origs f) /\ lookup cc (restore_origs f) = lookup cc f.
Proof.
  intros ND Sub (B & O).
  assert (R : forall q, lookup q (restore_origs f) = if existsb (fun p => teq p q) done then lookup (q ++ BACKUP) f else if existsb (fun p => teq (p ++ BACKUP) q) done then None else lookup q f).
  { apply restore_backs.
    - intros p I. destruct (eds_ok p (Sub p I)) as (? & ? & ? & ? & _). auto.
    - intros p I. rewrite (B p I). apply eds_ok, Sub, I.
    - intros o b L E. assert (S : src o = true) by (apply backs_src; rewrite E; discriminate). assert (N : o <> cc) by (intros ->; rewrite cc_back in E; discriminate).
      destruct (in_dec (list_eq_dec Z.eq_dec) o (map (fun q => q ++ BACKUP) done)) as [I|I].
      + apply in_map_iff in I. destruct I as (q & <- & I). destruct (eds_ok q (Sub q I)) as (Nq & _). rewrite (base_backup q Nq) in E. injection E as <-. auto.
      + exfalso. assert (Nd : ~ In o done). { intros J. destruct (eds_ok o (Sub o J)) as (_ & _ & X & _). rewrite X in E. discriminate. }
        rewrite (O o S N Nd) in L; [rewrite (no_backup o L) in E; discriminate|]. intros q J ->. apply I, in_map_iff. exists q. auto. }
  split.
  - intros p S N. rewrite R. destruct (existsb (fun q => teq q p) done) eqn:X1.
    + apply existsb_exists in X1. destruct X1 as (q & I & T). destruct (teq_spec q p) as [->|]; [|discriminate]. apply B, I.
    + assert (Nd : ~ In p done). { intros I. apply not_true_iff_false in X1. apply X1, existsb_exists. exists p. split; [exact I|apply teq_refl]. }
      destruct (existsb (fun q => teq (q ++ BACKUP) p) done) eqn:X2.
      * apply existsb_exists in X2. destruct X2 as (q & I & T). destruct (teq_spec (q ++ BACKUP) p) as [<-|]; [|discriminate].
        destruct (lookup (q ++ BACKUP) f0) eqn:L; [|reflexivity]. exfalso. assert (L' : lookup (q ++ BACKUP) f0 <> None) by (rewrite L; discriminate). apply no_backup in L'.
        destruct (eds_ok q (Sub q I)) as (Nq & _). rewrite (base_backup q Nq) in L'. discriminate.
      * apply O; [exact S|exact N|exact Nd|]. intros q I ->. apply not_true_iff_false in X2. apply X2, existsb_exists. exists q. split; [exact I|apply teq_refl].
  - rewrite R. assert (X1 : existsb (fun p => teq p cc) done = false).
    { apply not_true_is_false. intros X. apply existsb_exists in X. destruct X as (q & I & T). destruct (teq_spec q cc) as [->|]; [|discriminate]. destruct (eds_ok cc (Sub cc I)) as (_ & _ & _ & _ & X & _). congruence. }
    assert (X2 : existsb (fun p => teq (p ++ BACKUP) cc) done = false).
    { apply not_true_is_false. intros X. apply existsb_exists in X. destruct X as (q & I & T). destruct (teq_spec (q ++ BACKUP) cc) as [E|]; [|discriminate]. exact (proj2 (ed_back_src q (Sub q I)) E). }
    rewrite X1, X2. reflexivity.
Qed.
(** One patched file, one patch, all of them. *)
Lemma patch_one_step now done p ed f : In p eds -> ~ In p done -> (forall q, In q done -> In q eds) -> patched done f -> patched (p :: done) (patch_one BACKUP now f (p, ed)).
Proof.
  intros I Nd Sub (B & O). destruct (eds_ok p I) as (Np & Sp & Bp & _ & Cp & Lp). split.
  - intros q [<-|J].
    + rewrite patch_one_back. assert (L : lookup p f = lookup p f0). { apply O; [exact Sp|exact Cp|exact Nd|]. intros q J ->. destruct (eds_ok q (Sub q J)) as (Nq & _). rewrite (base_backup q Nq) in Bp. discriminate. }
      rewrite L. destruct (lookup p f0); [reflexivity|congruence].
    + rewrite patch_one_other; [apply B, J| |].
      * intros E. rewrite <- E in Bp. destruct (eds_ok q (Sub q J)) as (Nq & _). rewrite (base_backup q Nq) in Bp. discriminate.
      * intros E. apply backup_inj in E. subst q. contradiction.
  - intros q S N Nq Nb. rewrite patch_one_other; [apply O; [exact S|exact N| |]| |].
    + intros J. apply Nq. right. exact J.
    + intros q' J. apply Nb. right. exact J.
    + intros ->. apply Nq. left. reflexivity.
    + apply Nb. left. reflexivity.
Qed.
Lemma patch_run_step now es : forall done f, (forall e, In e es -> In (fst e) eds) -> NoDup (map fst es) -> (forall e, In e es -> ~ In (fst e) done) -> (forall q, In q done -> In q eds) ->
  patched done f -> patched (rev (map fst es) ++ done) (patch_run BACKUP now es f).
Proof.
  unfold patch_run. induction es as [|[p ed] es IH]; intros done f He ND Nd Sub P; cbn [fold_left map rev app fst]; [exact P|]. cbn [map fst] in ND. inversion ND as [|? ? Np ND']; subst.
  rewrite <- app_assoc. cbn [app]. apply IH.
  - intros e I. apply He. right. exact I.
  - exact ND'.
  - intros e I [E|J]; [apply Np; rewrite E; apply in_map, I|exact (Nd e (or_intror I) J)].
  - intros q [<-|J]; [apply (He (p, ed)); left; reflexivity|apply Sub, J].
  - apply patch_one_step; [apply (He (p, ed)); left; reflexivity|apply (Nd (p, ed)); left; reflexivity|exact Sub|exact P].
Qed.
Lemma run_step real e g m done : (forall p, In p done -> In p eds) -> patched done (g (clock m + 1) (files m)) -> patched done (files (run w cc real e g m)).
Proof.
  intros Sub H. unfold run. cbn [tick note with_files files clock trace]. destruct (signal_ w _); [|exact H]. unfold recover_cc, with_files. cbn [files].
  apply (patched_ext done (g (clock m + 1) (files m))); [exact Sub| |exact H]. intros p S N. rewrite lookup_relink, (teq_ne _ _ N). reflexivity.
Qed.
Lemma patches_step real : forall qs n done m, (forall q, In q done -> In q eds) -> (forall p, In p (map fst (concat qs)) -> In p eds) -> NoDup (map fst (concat qs)) ->
  (forall p, In p (map fst (concat qs)) -> ~ In p done) -> NoDup done -> patched done (files m) ->
  exists done', NoDup done' /\ (forall q, In q done' -> In q eds) /\ patched done' (files (patches w cc real n qs m)).
Proof.
  induction qs as [|es qs IH]; intros n done m Sub He ND Nd NDd P; cbn [patches]; [exists done; auto|]. cbn [concat] in *. rewrite map_app in *.
  assert (E1 : forall e, In e es -> In (fst e) eds) by (intros e I; apply He, in_or_app; left; apply in_map, I).
  assert (D : forall a b : list text, NoDup (a ++ b) -> NoDup a /\ NoDup b /\ (forall x, In x a -> ~ In x b)).
  { clear. induction a as [|x a IH]; intros b H; cbn [app] in *; [split; [constructor|split; [exact H|intros x []]]|]. inversion H as [|? ? Nx H']; subst. destruct (IH b H') as (A & B & C).
    split; [constructor; [intros I; apply Nx, in_or_app; left; exact I|exact A]|]. split; [exact B|]. intros y [<-|I]; [intros J; apply Nx, in_or_app; right; exact J|apply C, I]. }
  destruct (D _ _ ND) as (ND1 & ND2 & ND3).
  apply (IH (S n) (rev (map fst es) ++ done)).
  - intros q I. apply in_app_or in I. destruct I as [I|I]; [|apply Sub, I]. apply in_rev in I. apply in_map_iff in I. destruct I as (e & <- & I). apply E1, I.
  - intros p I. apply He, in_or_app. right. exact I.
  - exact ND2.
  - intros p I J. apply in_app_or in J. destruct J as [J|J]; [apply in_rev in J; exact (ND3 p J I)|]. exact (Nd p (in_or_app _ _ _ (or_intror I)) J).
  - clear IH. assert (A : forall a b : list text, NoDup a -> NoDup b -> (forall x, In x a -> ~ In x b) -> NoDup (a ++ b)).
    { clear. induction a as [|x a IH]; intros b Ha Hb H; cbn [app]; [exact Hb|]. inversion Ha; subst. constructor; [intros I; apply in_app_or in I; destruct I as [I|I]; [contradiction|exact (H x (or_introl eq_refl) I)]|]. apply IH; auto. intros y I. apply H. right. exact I. }
    apply A; [apply NoDup_rev, ND1|exact NDd|]. intros x I. apply in_rev in I. apply Nd, in_or_app. left. exact I.
  - apply run_step.
    + intros q I. apply in_app_or in I. destruct I as [I|I]; [|apply Sub, I]. apply in_rev in I. apply in_map_iff in I. destruct I as (e & <- & I). apply E1, I.
    + apply patch_run_step; auto. intros e I. apply Nd, in_or_app. left. apply in_map, I.
Qed.
Lemma build_step real clean m : same (files m) -> exists done, NoDup done /\ (forall q, In q done -> In q eds) /\ patched done (files (build_objects w cc real clean ps m)).
Proof.
  intros H. unfold build_objects. rewrite (restore_same _ H).
  assert (Q : forall done f g, (forall p, In p done -> In p eds) -> (forall p, src p = true -> lookup p g = lookup p f) -> patched done f -> patched done g).
  { intros done f g Sub X. apply patched_ext; [exact Sub|]. intros p S _. apply X, S. }
  assert (Nil : forall p : text, In p [] -> In p eds) by (intros p []).
  set (m1 := with_files m (files m)). assert (P1 : patched [] (files m1)) by (apply patched_nil; exact H). clearbody m1.
  set (m2 := if clean then run w cc real EClean (fun _ : Z => clean_ w) m1 else m1). assert (P2 : patched [] (files m2)).
  { unfold m2. destruct clean; [|exact P1]. apply run_step; [exact Nil|]. apply (Q [] (files m1)); [exact Nil| |exact P1]. intros p S. apply (quiet Original 0 _ p S). }
  clearbody m2. set (m3 := run w cc real (EMake Original) (make_ w Original) m2). assert (P3 : patched [] (files m3)).
  { apply run_step; [exact Nil|]. apply (Q [] (files m2)); [exact Nil| |exact P2]. intros p S. apply (quiet Original _ _ p S). }
  clearbody m3. set (m4 := run w cc real (EInstall Original) (install_ w Original) m3). assert (P4 : patched [] (files m4)).
  { apply run_step; [exact Nil|]. apply (Q [] (files m3)); [exact Nil| |exact P3]. intros p S. apply (quiet Original _ _ p S). }
  clearbody m4. destruct (patches_step real ps 0 [] m4 Nil) as (done & ND & Sub & P5); [auto|exact eds_once|intros p _ []|constructor|exact P4|].
  set (m5 := patches w cc real 0 ps m4) in *. clearbody m5.
  exists done. split; [exact ND|]. split; [exact Sub|]. apply run_step; [exact Sub|]. apply (Q done (files (run w cc real (EMake Patched) (make_ w Patched) m5))); [exact Sub|intros p S; apply (quiet Patched _ _ p S)|].
  apply run_step; [exact Sub|]. apply (Q done (files m5)); [exact Sub| |exact P5]. intros p S. apply (quiet Patched _ _ p S).
Qed.
Definition left_by (a : turn) : fs := match a with Next f _ => f | Exit1 f => f end.
Lemma one_exec_other id given now o p f q : q <> p ++ str ".stripped" -> q <> p ++ str ".kpatch" -> (forall b, q <> proot ++ str "/" ++ b ++ str ".kpatch") ->
  lookup q (left_by (one_exec t proot id given now o p f)) = lookup q f.
Proof.
  intros N1 N2 N3. unfold one_exec. destruct (content_of (lookup o f)) as [oc|]; [|reflexivity]. destruct (content_of (lookup p f)) as [pc|]; [|reflexivity].
  destruct (negb _); [reflexivity|]. destruct (teq _ _); [reflexivity|]. destruct (strip_ t pc) as [s|]; [|reflexivity].
  destruct (fixup_ t oc s) as [s2|]; [|cbn [left_by]; rewrite lookup_store, (teq_ne _ _ N1); reflexivity].
  destruct (unneeded_ t s2) as [s3|]; [|cbn [left_by]; rewrite lookup_store, (teq_ne _ _ N1); reflexivity].
  destruct (make_kpatch t _ id _) as [k|]; [|cbn [left_by]; rewrite lookup_store, (teq_ne _ _ N1); reflexivity].
  cbn [left_by]. unfold kpatch_name. rewrite !lookup_store, (teq_ne _ _ N1), (teq_ne _ _ N2), teq_ne; [reflexivity|apply N3].
Qed.
Lemma kpatches_other id given now q : forall xs f tr, (forall o p, In (o, p) xs -> q <> p ++ str ".stripped" /\ q <> p ++ str ".kpatch") -> (forall b, q <> proot ++ str "/" ++ b ++ str ".kpatch") ->
  lookup q (left_by (fst (build_kpatches t proot id given now xs f tr))) = lookup q f.
Proof.
  induction xs as [|[o p] xs IH]; intros f tr H N; cbn [build_kpatches]; [reflexivity|]. destruct (H o p (or_introl eq_refl)) as (N1 & N2).
  pose proof (one_exec_other id given now o p f q N1 N2 N) as E. destruct (one_exec t proot id given now o p f) as [g [k|]|g]; cbn [left_by fst] in E |- *; [| |exact E];
    (rewrite IH; [exact E|intros o' p' I; apply (H o' p'); right; exact I|exact N]).
Qed.
Lemma kpatches_src id given now done f tr : (forall p, In p done -> In p eds) -> patched done f -> patched done (left_by (fst (build_kpatches t proot id given now execs f tr))).
Proof.
  intros Sub P. apply (patched_ext done f); [exact Sub| |exact P]. intros q S N. apply kpatches_other.
  - intros o p I. destruct (outs o p I) as (A & B). split; intros ->; congruence.
  - intros b ->. rewrite roots in S. discriminate.
Qed.
Lemma main_sources gensrc clean upd id given m st m' : files m = f0 -> main w t cc libcare proot gensrc clean upd id given ps execs m = (st, m') -> same (files m').
Proof.
  intros F M. unfold main, main_checked in M. assert (S0 : same f0) by (intros p _ _; reflexivity).
  destruct (_ || _); [injection M as _ <-; cbn [with_files files]; rewrite F, (restore_same _ S0); exact S0|].
  destruct (negb gensrc); [injection M as _ <-; cbn [with_files files]; rewrite F, (restore_same _ S0); exact S0|].
  destruct (realpath 40 cc (files m)) as [real|]; [|injection M as _ <-; rewrite F; exact S0].
  assert (S1 : same (files (replace_cc cc libcare m))). { intros p S N. unfold replace_cc, with_files. cbn [files]. rewrite lookup_relink, (teq_ne _ _ N), F. reflexivity. }
  set (m1 := replace_cc cc libcare m) in *. clearbody m1.
  assert (P2 : exists done, NoDup done /\ (forall q, In q done -> In q eds) /\ patched done (files (if upd then m1 else build_objects w cc real clean ps m1))).
  { destruct upd; [|apply build_step, S1]. exists []. split; [constructor|]. split; [intros q []|apply patched_nil, S1]. }
  set (m2 := if upd then m1 else build_objects w cc real clean ps m1) in *. clearbody m2. destruct P2 as (done & ND & Sub & P2). cbn zeta in M. cbn [tick files clock trace] in M.
  pose proof (kpatches_src id given (clock m2 + 1) done (files m2) (trace m2) Sub P2) as P3.
  destruct (build_kpatches t proot id given (clock m2 + 1) execs (files m2) (trace m2)) as [[f mk|f] tr]; cbn [fst left_by] in P3; injection M as _ <-; cbn [files with_files recover_cc].
  - apply (restore_patched done); [exact ND|exact Sub|]. apply (patched_ext done f); [exact Sub| |exact P3]. intros p S N. rewrite lookup_relink, (teq_ne _ _ N). reflexivity.
  - apply (restore_patched done); [exact ND|exact Sub|exact P3].
Qed.
(** The name of the compiler after a run that succeeded. *)
Lemma main_cc gensrc clean upd id given m m' : files m = f0 -> main w t cc libcare proot gensrc clean upd id given ps execs m = (0, m') ->
  exists real, realpath 40 cc f0 = Some real /\ lookup cc (files m') = Some (Link real).
Proof.
  intros F M. unfold main, main_checked in M. assert (S0 : same f0) by (intros p _ _; reflexivity).
  destruct (_ || _); [discriminate|]. destruct (negb gensrc); [discriminate|]. rewrite F in M.
  destruct (realpath 40 cc f0) as [real|] eqn:R; [|discriminate]. exists real. split; [reflexivity|].
  assert (S1 : same (files (replace_cc cc libcare m))). { intros p S N. unfold replace_cc, with_files. cbn [files]. rewrite lookup_relink, (teq_ne _ _ N), F. reflexivity. }
  set (m1 := replace_cc cc libcare m) in *. clearbody m1.
  assert (P2 : exists done, NoDup done /\ (forall q, In q done -> In q eds) /\ patched done (files (if upd then m1 else build_objects w cc real clean ps m1))).
  { destruct upd; [|apply build_step, S1]. exists []. split; [constructor|]. split; [intros q []|apply patched_nil, S1]. }
  set (m2 := if upd then m1 else build_objects w cc real clean ps m1) in *. clearbody m2. destruct P2 as (done & ND & Sub & P2). cbn zeta in M. cbn [tick files clock trace] in M.
  pose proof (kpatches_src id given (clock m2 + 1) done (files m2) (trace m2) Sub P2) as P3.
  destruct (build_kpatches t proot id given (clock m2 + 1) execs (files m2) (trace m2)) as [[f mk|f] tr]; cbn [fst left_by] in P3; [|discriminate]. injection M as <-; cbn [files with_files recover_cc].
  assert (P4 : patched done (symlink real cc (unlink cc f))). { apply (patched_ext done f); [exact Sub| |exact P3]. intros p S N. rewrite lookup_relink, (teq_ne _ _ N). reflexivity. }
  destruct (restore_patched done _ ND Sub P4) as (_ & C). rewrite C, lookup_relink, teq_refl. reflexivity.
Qed.
End Whole.

(** * The loop over the executables *)
From Verif Require Import LpSpec.
Section Loop.
Variable t : tools.
Variable proot id : text.
Variable now : Z.
Notation name := (kpatch_name proot).
Lemma name_inj a b : name a = name b -> a = b.
Proof. unfold kpatch_name. intros H. apply app_inv_head in H. apply app_inv_head in H. apply app_inv_tail in H. exact H. Qed.
Lemma one_exec_made given o p f oc pc bid k : content_of (lookup o f) = Some oc -> content_of (lookup p f) = Some pc -> build_id t oc <> [] -> bid = match given with Some b => b | None => build_id t oc end ->
  chain t id bid oc pc k -> exists f', one_exec t proot id given now o p f = Next f' (Some (name bid)) /\ lookup (name bid) f' = Some (File k now).
Proof.
  intros Ho Hp Nb -> (K & s & s2 & s3 & s4 & E1 & E2 & E3 & E4 & E5). unfold one_exec. rewrite Ho, Hp, K, (teq_ne _ _ Nb), E1, E2, E3, E4, E5. cbn [negb].
  eexists. split; [reflexivity|]. rewrite lookup_store, teq_refl. reflexivity.
Qed.
Lemma one_exec_inv given o p f f' k : one_exec t proot id given now o p f = Next f' (Some k) ->
  exists oc pc kc bid, content_of (lookup o f) = Some oc /\ content_of (lookup p f) = Some pc /\ build_id t oc <> [] /\ bid = match given with Some b => b | None => build_id t oc end
    /\ k = name bid /\ chain_weak t id bid oc pc kc /\ lookup k f' = Some (File kc now).
Proof.
  unfold one_exec. destruct (content_of (lookup o f)) as [oc|]; [|discriminate]. destruct (content_of (lookup p f)) as [pc|]; [|discriminate].
  destruct (has_kpatch t pc) eqn:K; cbn [negb]; [|discriminate]. destruct (teq_spec (build_id t oc) []) as [|Nb]; [discriminate|].
  destruct (strip_ t pc) as [s|] eqn:E1; [|discriminate]. destruct (fixup_ t oc s) as [s2|] eqn:E2; [|discriminate]. destruct (unneeded_ t s2) as [s3|] eqn:E3; [|discriminate].
  destruct (make_kpatch t _ id _) as [kc|] eqn:E5; [|discriminate]. intros H. injection H as <- <-. exists oc, pc, kc, (match given with Some b => b | None => build_id t oc end).
  split; [reflexivity|]. split; [reflexivity|]. split; [exact Nb|]. split; [reflexivity|]. split; [reflexivity|]. split.
  - split; [exact K|]. exists s, s2, s3. split; [exact E1|]. split; [exact E2|]. split; [exact E3|]. destruct (undo_ t oc s3); exact E5.
  - rewrite lookup_store, teq_refl. reflexivity.
Qed.
Lemma one_exec_root given o p f q : q <> p ++ str ".stripped" -> q <> p ++ str ".kpatch" ->
  lookup q (left_by (one_exec t proot id given now o p f)) = lookup q f \/ (exists f', one_exec t proot id given now o p f = Next f' (Some q)).
Proof.
  intros N1 N2. unfold one_exec. destruct (content_of (lookup o f)) as [oc|]; [|left; reflexivity]. destruct (content_of (lookup p f)) as [pc|]; [|left; reflexivity].
  destruct (negb _); [left; reflexivity|]. destruct (teq _ _); [left; reflexivity|]. destruct (strip_ t pc) as [s|]; [|left; reflexivity].
  destruct (fixup_ t oc s) as [s2|]; [|left; cbn [left_by]; rewrite lookup_store, (teq_ne _ _ N1); reflexivity].
  destruct (unneeded_ t s2) as [s3|]; [|left; cbn [left_by]; rewrite lookup_store, (teq_ne _ _ N1); reflexivity].
  destruct (make_kpatch t _ id _) as [k|]; [|left; cbn [left_by]; rewrite lookup_store, (teq_ne _ _ N1); reflexivity].
  cbn [left_by]. rewrite lookup_store. destruct (teq_spec q (name match given with Some b => b | None => build_id t oc end)) as [->|N]; [right; eexists; reflexivity|].
  left. rewrite !lookup_store, (teq_ne _ _ N1), (teq_ne _ _ N2). reflexivity.
Qed.
Notation apart := (apart proot).
Lemma one_exec_input given o p f q xs : apart xs -> In (o, p) xs -> (exists o' p', In (o', p') xs /\ (q = o' \/ q = p')) -> lookup q (left_by (one_exec t proot id given now o p f)) = lookup q f.
Proof.
  intros A I (o' & p' & I' & Hq). destruct (proj1 (A o' p' o p I' I) q Hq) as (N1 & N2 & N3).
  destruct (one_exec_root given o p f q N1 N2) as [H|(f' & H)]; [exact H|]. apply one_exec_inv in H. destruct H as (oc & pc & kc & bid & _ & _ & _ & _ & E & _). exfalso. exact (N3 bid E).
Qed.
Lemma loop_made : forall xs f tr f' mk tr', apart xs -> NoDup xs ->
  (forall o p o' p' oc oc', In (o, p) xs -> In (o', p') xs -> content_of (lookup o f) = Some oc -> content_of (lookup o' f) = Some oc' -> build_id t oc = build_id t oc' -> build_id t oc <> [] -> (o, p) = (o', p')) ->
  build_kpatches t proot id None now xs f tr = (Next f' mk, tr') ->
  (forall o p oc pc k, In (o, p) xs -> content_of (lookup o f) = Some oc -> content_of (lookup p f) = Some pc -> build_id t oc <> [] -> chain t id (build_id t oc) oc pc k ->
     lookup (name (build_id t oc)) f' = Some (File k now) /\ In (EKpatch (name (build_id t oc))) tr')
  /\ (forall b, lookup (name b) f' = lookup (name b) f \/
        exists o p oc pc k, In (o, p) xs /\ content_of (lookup o f) = Some oc /\ content_of (lookup p f) = Some pc /\ b = build_id t oc /\ b <> [] /\ chain_weak t id b oc pc k /\ lookup (name b) f' = Some (File k now))
  /\ (exists more, tr' = tr ++ more).
Proof.
  induction xs as [|[o p] xs IH]; intros f tr f' mk tr' A ND U H; cbn [build_kpatches] in H.
  { injection H as <- _ <-. split; [intros o p oc pc k []|]. split; [intros b; left; reflexivity|exists []; rewrite app_nil_r; reflexivity]. }
  inversion ND as [|? ? Nx ND']; subst.
  assert (Inp : forall q, (exists o' p', In (o', p') ((o, p) :: xs) /\ (q = o' \/ q = p')) -> lookup q (left_by (one_exec t proot id None now o p f)) = lookup q f).
  { intros q Hq. apply (one_exec_input None o p f q ((o, p) :: xs)); [exact A|left; reflexivity|exact Hq]. }
  assert (A' : apart xs) by (intros a b c d I J; apply (A a b c d); right; assumption).
  set (g := left_by (one_exec t proot id None now o p f)) in *.
  assert (Hk : exists tr1, build_kpatches t proot id None now xs g tr1 = (Next f' mk, tr') /\ (tr1 = tr \/ exists k f1, tr1 = tr ++ [EKpatch k] /\ one_exec t proot id None now o p f = Next f1 (Some k) /\ g = f1) /\ (forall k f1, one_exec t proot id None now o p f = Next f1 (Some k) -> tr1 = tr ++ [EKpatch k] /\ g = f1)).
  { unfold g in *. clear g Inp. destruct (one_exec t proot id None now o p f) as [g [k|]|g]; cbn [left_by] in *; [| |discriminate].
    - exists (tr ++ [EKpatch k]). split; [exact H|]. split; [right; exists k, g; auto|]. intros k' f1 E. injection E as <- <-. auto.
    - exists tr. split; [exact H|]. split; [left; reflexivity|]. intros k' f1 E. discriminate. }
  clear H. destruct Hk as (tr1 & H & T1 & T2).
  assert (In1 : forall o' p', In (o', p') xs -> lookup o' g = lookup o' f /\ lookup p' g = lookup p' f).
  { intros o' p' I. split; apply Inp; exists o', p'; (split; [right; exact I|auto]). }
  destruct (IH g tr1 f' mk tr' A' ND') as (M & R & (more & Tm)); [|exact H|].
  { intros a b c d oc oc' I J E1 E2 Eb Nb. rewrite (proj1 (In1 a b I)) in E1. rewrite (proj1 (In1 c d J)) in E2. apply (U a b c d oc oc'); auto; right; assumption. }
  split; [|split].
  - intros a b oc pc k [E|I] Eo Ep Nb C.
    + injection E as <- <-. destruct (one_exec_made None o p f oc pc (build_id t oc) k Eo Ep Nb eq_refl C) as (f1 & E1 & L1). destruct (T2 _ _ E1) as (-> & G). subst f1.
      destruct (R (build_id t oc)) as [R1|(o' & p' & oc' & pc' & k' & I' & Eo' & _ & Eb & _)].
      * rewrite R1. split; [exact L1|]. rewrite Tm. apply in_or_app. left. apply in_or_app. right. left. reflexivity.
      * exfalso. rewrite (proj1 (In1 o' p' I')) in Eo'. apply Nx. rewrite (U o p o' p' oc oc' (or_introl eq_refl) (or_intror I') Eo Eo' Eb Nb). exact I'.
    + destruct (In1 a b I) as (G1 & G2). apply (M a b oc pc k I); [rewrite G1; exact Eo|rewrite G2; exact Ep|exact Nb|exact C].
  - intros b. destruct (R b) as [R1|(o' & p' & oc & pc & k & I & Eo & Ep & X)].
    + rewrite R1. destruct (A o p o p (or_introl eq_refl) (or_introl eq_refl)) as (_ & Nr). destruct (Nr b) as (N1 & N2).
      destruct (one_exec_root None o p f (name b) N1 N2) as [E|(f1 & E)]; [left; exact E|]. destruct (T2 _ _ E) as (_ & G). right.
      apply one_exec_inv in E. destruct E as (oc & pc & kc & bid & Eo & Ep & Nb & Ebid & En & C & L). apply name_inj in En. rewrite <- En in *. clear En bid. exists o, p, oc, pc, kc. rewrite G.
      split; [left; reflexivity|]. split; [exact Eo|]. split; [exact Ep|]. split; [exact Ebid|]. split; [rewrite Ebid; exact Nb|]. split; [exact C|exact L].
    + right. exists o', p', oc, pc, k. destruct (In1 o' p' I) as (G1 & G2). rewrite G1 in Eo. rewrite G2 in Ep. split; [right; exact I|]. split; [exact Eo|]. split; [exact Ep|exact X].
  - destruct T1 as [->|(k & f1 & -> & _)]; [exists more; exact Tm|]. exists ([EKpatch k] ++ more). rewrite Tm, <- app_assoc. reflexivity.
Qed.
End Loop.

(** * Make's rule *)
Section Rule.
Variable c obj : text.
Variable inst : stage -> text.
Variable compile : stage -> text -> text.
Variable signal : Z -> bool.
Variable cc real : text.
Notation w := (rules c obj inst compile signal).
Hypothesis distinct : NoDup [c; obj; inst Original; inst Patched; cc].
Hypothesis c_ok : c <> [] /\ base_of c = None /\ plain c = true.
Hypothesis others : base_of obj = None /\ base_of (inst Original) = None /\ base_of (inst Patched) = None /\ base_of cc = None.
Lemma run_lookup e g m q : q <> cc -> lookup q (files (run w cc real e g m)) = lookup q (g (clock m + 1) (files m)).
Proof. intros N. unfold run. cbn [tick note with_files files clock trace]. destruct (signal_ _ _); [|reflexivity]. unfold recover_cc, with_files. cbn [files]. rewrite lookup_relink, (teq_ne _ _ N). reflexivity. Qed.
Lemma run_clock e g m : clock (run w cc real e g m) = clock m + 1.
Proof. unfold run. cbn [tick note with_files files clock trace]. destruct (signal_ _ _); reflexivity. Qed.
Lemma lookup_cons p n f q : lookup q ((p, n) :: f) = if teq p q then Some n else lookup q f.
Proof. reflexivity. Qed.
Lemma lookup_clean q f : lookup q (rule_clean obj inst f) = if in_dec (list_eq_dec Z.eq_dec) q [obj; inst Original; inst Patched] then None else lookup q f.
Proof.
  unfold rule_clean. induction f as [|[p n] f IH]; cbn [filter lookup fst]; [destruct (in_dec (list_eq_dec Z.eq_dec) q [obj; inst Original; inst Patched]); reflexivity|].
  destruct (in_dec (list_eq_dec Z.eq_dec) p [obj; inst Original; inst Patched]) as [I|I].
  - rewrite IH. destruct (in_dec (list_eq_dec Z.eq_dec) q [obj; inst Original; inst Patched]) as [J|J]; [reflexivity|]. rewrite teq_ne by (intros ->; contradiction). reflexivity.
  - cbn [lookup]. rewrite IH. destruct (teq_spec p q) as [->|N]; [destruct (in_dec (list_eq_dec Z.eq_dec) q [obj; inst Original; inst Patched]) as [J|J]; [contradiction|reflexivity]|reflexivity].
Qed.
(** The build from files where the source [c] holds [x]. *)
Lemma rule_build clean ed m x tm y : lookup c (restore_origs (files m)) = Some (File x tm) -> tm <= clock m -> (clean = true \/ lookup obj (restore_origs (files m)) = None) -> ed (Some x) = Some y ->
  let m' := build_objects w cc real clean [[(c, ed)]] m in
  (exists n, lookup (inst Original) (files m') = Some (File (compile Original x) n)) /\ (exists n, lookup (inst Patched) (files m') = Some (File (compile Patched y) n)).
Proof.
  intros Lc Tm Ob Ed. cbn zeta. unfold build_objects.
  assert (D : obj <> c /\ inst Original <> c /\ inst Original <> obj /\ inst Patched <> c /\ inst Patched <> obj /\ inst Patched <> inst Original /\ c <> cc /\ obj <> cc /\ inst Original <> cc /\ inst Patched <> cc).
  { inversion distinct as [|? ? N1 D1]; subst. inversion D1 as [|? ? N2 D2]; subst. inversion D2 as [|? ? N3 D3]; subst. inversion D3 as [|? ? N4 D4]; subst. cbn [In] in *. repeat split; intros E; intuition congruence. }
  destruct D as (D1 & D2 & D3 & D4 & D5 & D6 & D7 & D8 & D9 & D10).
  assert (B : forall q, base_of q = None -> q <> c ++ BACKUP) by (intros q Bq ->; rewrite (base_backup c (proj1 c_ok)) in Bq; discriminate).
  destruct others as (O1 & O2 & O3 & _). pose proof (B _ O1) as B1. pose proof (B _ O2) as B2. pose proof (B _ O3) as B3.
  set (m1 := with_files m (restore_origs (files m))). assert (Lc1 : lookup c (files m1) = Some (File x tm)) by exact Lc. assert (Ob1 : clean = true \/ lookup obj (files m1) = None) by exact Ob.
  assert (Ck1 : clock m1 = clock m) by reflexivity. clearbody m1.
  set (m2 := if clean then run w cc real EClean (fun _ : Z => clean_ w) m1 else m1).
  assert (F2 : lookup c (files m2) = Some (File x tm) /\ lookup obj (files m2) = None /\ clock m <= clock m2).
  { unfold m2. destruct clean.
    - rewrite !run_lookup, run_clock by assumption. cbn [clean_ rules]. rewrite !lookup_clean. destruct (in_dec (list_eq_dec Z.eq_dec) c [obj; inst Original; inst Patched]) as [I|_]; [cbn [In] in I; intuition congruence|]. destruct (in_dec (list_eq_dec Z.eq_dec) obj [obj; inst Original; inst Patched]) as [_|I]; [|exfalso; apply I; left; reflexivity]. split; [exact Lc1|]. split; [reflexivity|lia].
    - destruct Ob1 as [?|Ob1]; [discriminate|]. split; [exact Lc1|]. split; [exact Ob1|lia]. }
  clearbody m2. destruct F2 as (Lc2 & Lo2 & Ck2).
  set (m3 := run w cc real (EMake Original) (make_ w Original) m2).
  assert (F3 : lookup c (files m3) = Some (File x tm) /\ lookup obj (files m3) = Some (File (compile Original x) (clock m2 + 1)) /\ clock m3 = clock m2 + 1).
  { unfold m3. rewrite !run_lookup, run_clock by assumption. cbn [make_ rules]. unfold rule_make. rewrite Lc2, Lo2, !lookup_cons, teq_refl, (teq_ne obj c) by assumption. auto. }
  clearbody m3. destruct F3 as (Lc3 & Lo3 & Ck3).
  set (m4 := run w cc real (EInstall Original) (install_ w Original) m3).
  assert (F4 : lookup c (files m4) = Some (File x tm) /\ lookup obj (files m4) = Some (File (compile Original x) (clock m2 + 1)) /\ (exists n, lookup (inst Original) (files m4) = Some (File (compile Original x) n)) /\ clock m4 = clock m2 + 2).
  { unfold m4. rewrite !run_lookup, run_clock by assumption. cbn [install_ rules]. unfold rule_install. rewrite Lo3, !lookup_cons, teq_refl, (teq_ne _ c), (teq_ne _ obj) by assumption. rewrite Lc3, Lo3, Ck3. split; [reflexivity|]. split; [reflexivity|]. split; [eexists; reflexivity|lia]. }
  clearbody m4. destruct F4 as (Lc4 & Lo4 & Li4 & Ck4).
  cbn [patches]. set (m5 := run w cc real (EPatch 0) _ m4).
  assert (F5 : lookup c (files m5) = Some (File y (clock m2 + 3)) /\ lookup obj (files m5) = Some (File (compile Original x) (clock m2 + 1)) /\ (exists n, lookup (inst Original) (files m5) = Some (File (compile Original x) n)) /\ clock m5 = clock m2 + 3).
  { unfold m5. rewrite !run_lookup, run_clock by assumption. unfold patch_run. cbn [fold_left]. rewrite (patch_one_other _ c ed _ obj), (patch_one_other _ c ed _ (inst Original)) by assumption. unfold patch_one. rewrite Lc4. cbn [content_of]. rewrite Ed, lookup_store, teq_refl, Ck4. repeat split; try assumption; [do 2 f_equal; lia|lia]. }
  clearbody m5. destruct F5 as (Lc5 & Lo5 & Li5 & Ck5).
  set (m6 := run w cc real (EMake Patched) (make_ w Patched) m5).
  assert (F6 : lookup obj (files m6) = Some (File (compile Patched y) (clock m5 + 1)) /\ (exists n, lookup (inst Original) (files m6) = Some (File (compile Original x) n))).
  { unfold m6. rewrite !run_lookup by assumption. cbn [make_ rules]. unfold rule_make. rewrite Lc5, Lo5. rewrite (proj2 (Z.ltb_lt _ _)) by lia. rewrite !lookup_cons, teq_refl, (teq_ne obj) by congruence. auto. }
  clearbody m6. destruct F6 as (Lo6 & Li6).
  rewrite !run_lookup by assumption. cbn [install_ rules]. unfold rule_install. rewrite Lo6, !lookup_cons, teq_refl, (teq_ne (inst Patched)) by assumption. split; [exact Li6|eexists; reflexivity].
Qed.
End Rule.
