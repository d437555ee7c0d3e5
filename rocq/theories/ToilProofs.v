From Coq Require Import String.
From Verif Require Import Base BaseProofs StorageModel TextModel LoptModel LoptProofs ToilModel ToilSpec.
Open Scope list_scope.

Lemma leq_refl (s : text) : list_eqb s s = true.
Proof. apply list_eqb_eq. reflexivity. Qed.
Lemma leq_ne (a b : text) : a <> b -> list_eqb a b = false.
Proof. intros N. destruct (list_eqb a b) eqn:E; [apply list_eqb_eq in E; contradiction|reflexivity]. Qed.

(** * Names *)
Lemma slash_in s : existsb (Z.eqb 47) s = true <-> In SLASH s.
Proof. rewrite existsb_exists. split; [intros (x & I & E); apply Z.eqb_eq in E; subst; exact I|intros I; exists 47; split; [exact I|reflexivity]]. Qed.
Lemma no_slash_in s : ~ In SLASH s -> existsb (Z.eqb 47) s = false.
Proof. intros N. destruct (existsb (Z.eqb 47) s) eqn:E; [apply slash_in in E; contradiction|reflexivity]. Qed.
Lemma basename_plain n : ~ In SLASH n -> basename n = n.
Proof. intros N. destruct n as [|c n]; [reflexivity|]. cbn [basename]. rewrite (no_slash_in _ N). reflexivity. Qed.
Lemma basename_dir d : forall n, ~ In SLASH n -> basename (d ++ [SLASH] ++ n) = n.
Proof.
  induction d as [|c d IH]; intros n N.
  - cbn [app basename existsb]. change (47 =? SLASH) with true. cbn [orb]. apply basename_plain, N.
  - cbn [app basename]. replace (existsb (Z.eqb 47) (c :: d ++ SLASH :: n)) with true; [apply (IH n N)|].
    symmetry. apply slash_in. right. apply in_or_app. right. left. reflexivity.
Qed.
Lemma basename_file u n : file_of u n -> basename u = n.
Proof. intros (N & [->|(d & ->)]); [apply basename_plain|apply basename_dir]; exact N. Qed.
Lemma unstarred_begins u : unstarred u -> begins (str "*") u = false.
Proof. intros U. destruct (begins (str "*") u) eqn:B; [|reflexivity]. apply begins_spec in B. destruct B as (r & ->). exfalso. apply (U r). reflexivity. Qed.
Lemma stars_begin k u : begins (str "*") (repeat STAR (S k) ++ u) = true.
Proof. apply begins_spec. exists (repeat STAR k ++ u). reflexivity. Qed.
Lemma strip_none u : unstarred u -> strip_stars u = u.
Proof.
  intros U. destruct u as [|c u]; [reflexivity|]. destruct (Z.eq_dec c 42) as [->|N]; [exfalso; apply (U u); reflexivity|].
  cbn [strip_stars]. destruct c as [|p|p]; try reflexivity. do 6 (destruct p as [p|p|]; try reflexivity). contradiction N. reflexivity.
Qed.
Lemma strip_all k u : unstarred u -> strip_stars (repeat STAR k ++ u) = u.
Proof. intros U. induction k as [|k IH]; [apply strip_none, U|exact IH]. Qed.
Lemma parse_says i n u b : says i n u b -> parse_info i = Some (FI n u b).
Proof.
  intros [x m U F|k d m U N|m x U|k m x U]; cbn [parse_info].
  - rewrite (unstarred_begins x U), (basename_file x m F). reflexivity.
  - rewrite stars_begin, (strip_all (S k) _ U). f_equal. f_equal. rewrite app_assoc. apply (basename_dir (repeat STAR (S k) ++ d) m N).
  - rewrite (unstarred_begins x U). reflexivity.
  - rewrite stars_begin, (strip_all (S k) _ U). reflexivity.
Qed.

(** * Places *)
Lemma not_contains p s : ~ occurs p s -> contains p s = false.
Proof. intros N. destruct (contains p s) eqn:E; [|reflexivity]. apply contains_spec in E. exfalso. apply N. exact E. Qed.
Lemma drop_none s : ~ occurs (str "file://") s -> drop_scheme 0 s = s.
Proof.
  induction s as [|c s IH]; intros N; [reflexivity|]. cbn [drop_scheme].
  destruct (begins (str "file://") (c :: s)) eqn:B.
  - apply begins_spec in B. destruct B as (r & B). exfalso. apply N. exists [], r. exact B.
  - rewrite IH; [reflexivity|]. intros (a & b & E). apply N. exists (c :: a), b. rewrite E. reflexivity.
Qed.
Lemma no_scheme s : ~ occurs (str "://") s -> ~ occurs (str "file://") s.
Proof. intros N (a & b & E). apply N. exists (a ++ str "file"), b. rewrite E, <- app_assoc. reflexivity. Qed.
Lemma last_snoc (a : text) c d : last (a ++ [c]) d = c.
Proof. induction a as [|x a IH]; [reflexivity|]. cbn [app last]. destruct (a ++ [c]) eqn:E; [destruct a; discriminate|exact IH]. Qed.
Lemma join_dir r p : directory_name r -> (forall q, p <> SLASH :: q) -> join r p = r ++ [SLASH] ++ p.
Proof.
  intros (a & c & -> & N) P. unfold join. destruct (begins (str "/") p) eqn:B; [apply begins_spec in B; destruct B as (q & B); exfalso; exact (P q B)|].
  rewrite (leq_ne (a ++ [c]) []) by (destruct a; discriminate). rewrite last_snoc. apply Z.eqb_neq in N. unfold SLASH in N. rewrite N. reflexivity.
Qed.
Lemma place_lies abspath root u s : directory_name root -> lies abspath root u s ->
  match s with Disk p => myabspath abspath (Some root) u = Local p | Net _ => forall r, myabspath abspath r u = Remote end.
Proof.
  intros R [p O|p O P Q|p O|p O P Q|v O F]; unfold myabspath.
  - rewrite (not_contains _ _ O), (drop_none _ (no_scheme _ O)). cbn [negb orb]. unfold SLASH at 1. cbn [Z.eqb Pos.eqb existsb orb negb andb]. reflexivity.
  - rewrite (not_contains _ _ O), (drop_none _ (no_scheme _ O)). cbn [negb orb]. destruct p as [|c p]; [contradiction|].
    assert (T : (c =? 46) || negb (existsb (Z.eqb 47) (c :: p)) = true).
    { destruct Q as [Q|(q & Q)]; [rewrite (no_slash_in _ Q), orb_true_r; reflexivity|injection Q as -> _; reflexivity]. }
    cbv zeta. rewrite T. rewrite leq_ne by (destruct R as (a & d & -> & _); destruct a; discriminate). cbn [andb negb]. rewrite join_dir; [reflexivity|exact R|].
    intros q E. injection E as -> ->. destruct Q as [Q|(q' & Q)]; [apply Q; left; reflexivity|discriminate Q].
  - replace (begins (str "file://") (str "file://" ++ SLASH :: p)) with true by (symmetry; apply begins_spec; eexists; reflexivity). rewrite orb_true_r.
    assert (D : drop_scheme 0 (str "file://" ++ SLASH :: p) = SLASH :: p).
    { transitivity (drop_scheme 0 (SLASH :: p)); [reflexivity|apply drop_none, O]. }
    rewrite D. cbv zeta. unfold SLASH at 1. cbn [Z.eqb Pos.eqb existsb orb negb andb]. reflexivity.
  - replace (begins (str "file://") (str "file://" ++ p)) with true by (symmetry; apply begins_spec; eexists; reflexivity). rewrite orb_true_r.
    assert (D : drop_scheme 0 (str "file://" ++ p) = p) by (transitivity (drop_scheme 0 p); [reflexivity|apply drop_none, O]).
    rewrite D. destruct p as [|c p]; [contradiction|].
    assert (T : (c =? 46) || negb (existsb (Z.eqb 47) (c :: p)) = true).
    { destruct Q as [Q|(q & Q)]; [rewrite (no_slash_in _ Q), orb_true_r; reflexivity|injection Q as -> _; reflexivity]. }
    cbv zeta. rewrite T. rewrite leq_ne by (destruct R as (a & d & -> & _); destruct a; discriminate). cbn [andb negb]. rewrite join_dir; [reflexivity|exact R|].
    intros q E. injection E as -> ->. destruct Q as [Q|(q' & Q)]; [apply Q; left; reflexivity|discriminate Q].
  - intros r. replace (contains (str "://") v) with true by (symmetry; apply contains_spec; exact O).
    destruct (begins (str "file://") v) eqn:B; [apply begins_spec in B; destruct B as (q & B); exfalso; exact (F q B)|reflexivity].
Qed.
Lemma net_same abspath root u v : lies abspath root u (Net v) -> v = u.
Proof. intros H. inversion H; reflexivity. Qed.

(** * The inputs *)
Definition local_of (w : wish) : list (text * text) := match w_from w with Disk p => [(w_name w, p)] | Net _ => [] end.
Definition remote (w : wish) : bool := match w_from w with Disk _ => false | Net _ => true end.
Definition job_of (w : wish) : list finfo := match w_from w with Disk _ => [] | Net u => [FI (w_name w) u (w_must w)] end.
Section Inputs.
Variable abspath : text -> text.
Variable fs : text -> file.
Variable accepts : text -> bool.
Variable web : text -> option text.
Variable root : text.
Hypothesis R : directory_name root.

Lemma sort_wishes ws : Forall (understood abspath root) ws ->
  sort_inputs abspath (Some root) (map w_info ws) = Some (flat_map local_of ws, map w_info (filter remote ws)).
Proof.
  intros F. induction F as [|w ws (u & S & L) F IH]; [reflexivity|].
  cbn [map sort_inputs flat_map filter]. rewrite (parse_says _ _ _ _ S). cbn [fi_url fi_name]. pose proof (place_lies _ _ _ _ R L) as P.
  unfold local_of at 1, remote at 1. destruct (w_from w) as [p|v]; [rewrite P|rewrite (P (Some root))]; rewrite IH; reflexivity.
Qed.
Lemma sset_same n e st : sset n e st n = Some e.
Proof. unfold sset. rewrite leq_refl. reflexivity. Qed.
Lemma sset_other n e st m : n <> m -> sset n e st m = st m.
Proof. intros N. unfold sset. rewrite leq_ne; [reflexivity|exact N]. Qed.
Lemma text_dec (a b : text) : a = b \/ a <> b.
Proof. destruct (list_eqb a b) eqn:E; [left; apply list_eqb_eq, E|right; intros ->; rewrite leq_refl in E; discriminate]. Qed.

Lemma import_spec ls : forall st, NoDup (map fst ls) -> (forall n, In n (map fst ls) -> st n = None) ->
  match import_local fs accepts ls st with
  | Some st' => (forall n p, In (n, p) ls -> fs p <> Unreadable /\ forall c, fs p = There c -> accepts n = true) /\
                forall m e, st' m = Some e <-> st m = Some e \/ exists p c, In (m, p) ls /\ fs p = There c /\ e = Imported c
  | None => exists n p, In (n, p) ls /\ (fs p = Unreadable \/ exists c, fs p = There c /\ accepts n = false)
  end.
Proof.
  induction ls as [|[n p] ls IH]; intros st D E.
  - cbn [import_local]. split; [intros n p []|]. intros m e. split; [intros H; left; exact H|intros [H|(p & c & [] & _)]; exact H].
  - cbn [import_local map fst] in *. apply NoDup_cons_iff in D. destruct D as [D1 D2]. unfold has. rewrite (E n (or_introl eq_refl)).
    destruct (fs p) as [| |c] eqn:FP.
    + specialize (IH st D2 (fun m I => E m (or_intror I))). destruct (import_local fs accepts ls st) as [st'|].
      * destruct IH as [I1 I2]. split.
        -- intros m q [H|H]; [injection H as <- <-; rewrite FP; split; [discriminate|intros c; discriminate]|exact (I1 m q H)].
        -- intros m e. rewrite I2. split; (intros [H|(q & c & H1 & H2)]; [left; exact H|right; exists q, c; split; [|exact H2]]).
           ++ right. exact H1.
           ++ destruct H1 as [H1|H1]; [injection H1 as <- <-; destruct H2 as [H2 _]; congruence|exact H1].
      * destruct IH as (m & q & I & H). exists m, q. split; [right; exact I|exact H].
    + exists n, p. split; [left; reflexivity|left; exact FP].
    + destruct (accepts n) eqn:A; [|exists n, p; split; [left; reflexivity|right; exists c; split; assumption]].
      specialize (IH (sset n (Imported c) st) D2). destruct (import_local fs accepts ls (sset n (Imported c) st)) as [st'|].
      * destruct IH as [I1 I2]; [intros m I; rewrite sset_other; [exact (E m (or_intror I))|intros ->; contradiction]|]. split.
        -- intros m q [H|H]; [injection H as <- <-; rewrite FP; split; [discriminate|intros _ _; exact A]|exact (I1 m q H)].
        -- intros m e. rewrite I2. destruct (text_dec n m) as [<-|N].
           ++ rewrite sset_same. rewrite (E n (or_introl eq_refl)). split.
              ** intros [H|(q & c' & H1 & _)]; [right; exists p, c; split; [left; reflexivity|split; [exact FP|congruence]]|].
                 exfalso. apply D1. apply in_map_iff. exists (n, q). split; [reflexivity|exact H1].
              ** intros [H|(q & c' & H1 & H2 & ->)]; [discriminate|]. left. destruct H1 as [H1|H1]; [injection H1 as <-; congruence|].
                 exfalso. apply D1. apply in_map_iff. exists (n, q). split; [reflexivity|exact H1].
           ++ rewrite (sset_other n _ st m N). split; (intros [H|(q & c' & H1 & H2)]; [left; exact H|right; exists q, c'; split; [|exact H2]]).
              ** right. exact H1.
              ** destruct H1 as [H1|H1]; [injection H1 as E1 _; contradiction|exact H1].
      * destruct IH as (m & q & I & H); [intros m I; rewrite sset_other; [exact (E m (or_intror I))|intros ->; contradiction]|].
        exists m, q. split; [right; exact I|exact H].
Qed.

Lemma to_fetch_wishes cwd st ws : Forall (understood abspath root) ws -> (forall w, In w ws -> remote w = true -> st (w_name w) = None) ->
  to_fetch abspath (Some cwd) st (map w_info (filter remote ws)) = Some (flat_map job_of ws).
Proof.
  intros F. induction F as [|w ws (u & S & L) F IH]; intros N; [reflexivity|].
  assert (N' : forall v, In v ws -> remote v = true -> st (w_name v) = None) by (intros v I; exact (N v (or_intror I))).
  specialize (IH N'). specialize (N w (or_introl eq_refl)). cbn [filter flat_map]. unfold remote in N. unfold remote at 1, job_of at 1.
  pose proof (place_lies _ _ _ _ R L) as P. destruct (w_from w) as [p|v] eqn:W; [exact IH|].
  apply net_same in L. subst v. cbn [map to_fetch]. rewrite (parse_says _ _ _ _ S). cbn [fi_name fi_url]. unfold has. rewrite (N eq_refl), (P (Some cwd)), IH. reflexivity.
Qed.
Lemma fetch_spec l : forall st, NoDup (map fi_name l) -> (forall f, In f l -> st (fi_name f) = None) ->
  match fetch_all web l st with
  | Some st' => (forall f, In f l -> fi_required f = true -> web (fi_url f) <> None) /\
                forall m e, st' m = Some e <-> st m = Some e \/ exists f c, In f l /\ fi_name f = m /\ web (fi_url f) = Some c /\ e = Stored c
  | None => exists f, In f l /\ fi_required f = true /\ web (fi_url f) = None
  end.
Proof.
  induction l as [|f l IH]; intros st D E.
  - cbn [fetch_all]. split; [intros f []|]. intros m e. split; [intros H; left; exact H|intros [H|(f & c & [] & _)]; exact H].
  - cbn [fetch_all map] in *. apply NoDup_cons_iff in D. destruct D as [D1 D2].
    destruct (web (fi_url f)) as [c|] eqn:W.
    + assert (E' : forall g, In g l -> sset (fi_name f) (Stored c) st (fi_name g) = None).
      { intros g I. rewrite sset_other; [exact (E g (or_intror I))|]. intros Q. apply D1. rewrite Q. apply in_map, I. }
      specialize (IH _ D2 E'). destruct (fetch_all web l (sset (fi_name f) (Stored c) st)) as [st'|].
      * destruct IH as [I1 I2]. split; [intros g [<-|I] B; [congruence|exact (I1 g I B)]|].
        intros m e. rewrite I2. destruct (text_dec (fi_name f) m) as [<-|N].
        -- rewrite sset_same, (E f (or_introl eq_refl)). split.
           ++ intros [H|(g & c' & H1 & H2 & _)]; [right; exists f, c; split; [left; reflexivity|split; [reflexivity|split; [exact W|congruence]]]|].
              exfalso. apply D1. rewrite <- H2. apply in_map, H1.
           ++ intros [H|(g & c' & H1 & H2 & H3 & ->)]; [discriminate|]. left. destruct H1 as [<-|H1]; [congruence|]. exfalso. apply D1. rewrite <- H2. apply in_map, H1.
        -- rewrite (sset_other _ _ st m N). split; (intros [H|(g & c' & H1 & H2)]; [left; exact H|right; exists g, c'; split; [|exact H2]]).
           ++ right. exact H1.
           ++ destruct H1 as [<-|H1]; [destruct H2; contradiction|exact H1].
      * destruct IH as (g & I & H). exists g. split; [right; exact I|exact H].
    + destruct (fi_required f) eqn:Q; [exists f; split; [left; reflexivity|split; assumption]|].
      specialize (IH st D2 (fun g I => E g (or_intror I))). destruct (fetch_all web l st) as [st'|].
      * destruct IH as [I1 I2]. split; [intros g [<-|I] B; [congruence|exact (I1 g I B)]|].
        intros m e. rewrite I2. split; (intros [H|(g & c' & H1 & H2)]; [left; exact H|right; exists g, c'; split; [|exact H2]]).
        -- right. exact H1.
        -- destruct H1 as [<-|H1]; [destruct H2 as (_ & H2 & _); congruence|exact H1].
      * destruct IH as (g & I & H). exists g. split; [right; exact I|exact H].
Qed.
Lemma local_in n p ws : In (n, p) (flat_map local_of ws) <-> exists w, In w ws /\ w_name w = n /\ w_from w = Disk p.
Proof.
  rewrite in_flat_map. unfold local_of. split; intros (w & I & H); exists w; (split; [exact I|]).
  - destruct (w_from w) as [q|v]; [|contradiction]. destruct H as [H|[]]. injection H as <- <-. split; reflexivity.
  - destruct H as [H1 H2]. rewrite H2, H1. left. reflexivity.
Qed.
Lemma job_in f ws : In f (flat_map job_of ws) <-> exists w, In w ws /\ w_name w = fi_name f /\ w_from w = Net (fi_url f) /\ w_must w = fi_required f.
Proof.
  rewrite in_flat_map. unfold job_of. split; intros (w & I & H); exists w; (split; [exact I|]).
  - destruct (w_from w) as [q|v]; [contradiction|]. destruct H as [H|[]]. subst f. repeat split.
  - destruct H as (H1 & H2 & H3). rewrite H2, H1, H3. left. destruct f. reflexivity.
Qed.
Lemma nodup_locals ws : NoDup (map w_name ws) -> NoDup (map fst (flat_map local_of ws)).
Proof.
  induction ws as [|w ws IH]; intros D; [constructor|]. cbn [map] in D. apply NoDup_cons_iff in D. destruct D as [D1 D2].
  cbn [flat_map]. unfold local_of at 1. destruct (w_from w) as [p|v]; [|exact (IH D2)]. cbn [app map fst]. constructor; [|exact (IH D2)].
  intros I. apply in_map_iff in I. destruct I as ([n q] & E & I). cbn [fst] in E. subst n. apply local_in in I. destruct I as (x & I & E & _). apply D1. rewrite <- E. apply in_map, I.
Qed.
Lemma nodup_jobs ws : NoDup (map w_name ws) -> NoDup (map fi_name (flat_map job_of ws)).
Proof.
  induction ws as [|w ws IH]; intros D; [constructor|]. cbn [map] in D. apply NoDup_cons_iff in D. destruct D as [D1 D2].
  cbn [flat_map]. unfold job_of at 1. destruct (w_from w) as [p|v]; [exact (IH D2)|]. cbn [app map fi_name]. constructor; [|exact (IH D2)].
  intros I. apply in_map_iff in I. destruct I as (f & E & I). apply job_in in I. destruct I as (x & I & E' & _). apply D1. rewrite <- E, <- E'. apply in_map, I.
Qed.
Lemma name_unique ws w v : NoDup (map w_name ws) -> In w ws -> In v ws -> w_name w = w_name v -> w = v.
Proof.
  induction ws as [|x ws IH]; intros D I J E; [contradiction|]. cbn [map] in D. apply NoDup_cons_iff in D. destruct D as [D1 D2].
  destruct I as [->|I], J as [->|J]; [reflexivity| | |exact (IH D2 I J E)]; exfalso; apply D1; [rewrite E|rewrite <- E]; apply in_map; assumption.
Qed.

Theorem gather_spec cwd ws : Forall (understood abspath root) ws -> NoDup (map w_name ws) ->
  match gather abspath fs accepts web cwd root (map w_info ws) with
  | Some st => Forall (no_obstacle fs accepts web) ws /\ forall n e, st n = Some e <-> provided fs web ws n e
  | None => ~ Forall (no_obstacle fs accepts web) ws
  end.
Proof using R.
  intros F D. unfold gather, import_inputs. rewrite (sort_wishes ws F).
  pose proof (import_spec (flat_map local_of ws) empty (nodup_locals ws D) (fun _ _ => eq_refl)) as I.
  destruct (import_local fs accepts (flat_map local_of ws) empty) as [st|].
  - destruct I as [I1 I2]. cbn [and_then]. unfold fetch.
    assert (N : forall w, In w ws -> remote w = true -> st (w_name w) = None).
    { intros w J B. destruct (st (w_name w)) as [e|] eqn:Q; [|reflexivity]. exfalso. apply I2 in Q. destruct Q as [Q|(p & c & Q & _)]; [discriminate|].
      apply local_in in Q. destruct Q as (v & V & E & S). assert (v = w) by (exact (name_unique ws v w D V J E)). subst v. unfold remote in B. rewrite S in B. discriminate. }
    rewrite (to_fetch_wishes cwd st ws F N).
    assert (N' : forall f, In f (flat_map job_of ws) -> st (fi_name f) = None).
    { intros f J. apply job_in in J. destruct J as (w & J & E & S & _). rewrite <- E. apply N; [exact J|unfold remote; rewrite S; reflexivity]. }
    pose proof (fetch_spec (flat_map job_of ws) st (nodup_jobs ws D) N') as J.
    destruct (fetch_all web (flat_map job_of ws) st) as [st'|].
    + destruct J as [J1 J2]. split.
      * apply Forall_forall. intros w W. unfold no_obstacle. destruct (w_from w) as [p|u] eqn:S.
        -- apply I1. apply local_in. exists w. repeat split; assumption.
        -- intros M. apply (J1 (FI (w_name w) u (w_must w))); [|exact M]. apply job_in. exists w. repeat split; assumption.
      * intros n e. rewrite J2, I2. unfold provided. split.
        -- intros [[H|(p & c & H & H2)]|(f & c & H & H1 & H2)]; [discriminate| |].
           ++ apply local_in in H. destruct H as (w & W & E & S). exists w. rewrite S. repeat split; try assumption. exists c. exact H2.
           ++ apply job_in in H. destruct H as (w & W & E & S & _). exists w. rewrite S. split; [exact W|split; [congruence|]]. exists c. exact H2.
        -- intros (w & W & E & H). destruct (w_from w) as [p|u] eqn:S.
           ++ left. right. destruct H as (c & H). exists p, c. split; [|exact H]. apply local_in. exists w. repeat split; assumption.
           ++ right. destruct H as (c & H). exists (FI (w_name w) u (w_must w)), c. split; [|split; [exact E|exact H]]. apply job_in. exists w. repeat split; assumption.
    + destruct J as (f & J & Q & W). apply job_in in J. destruct J as (w & J & E & S & M). intros A. rewrite Forall_forall in A. specialize (A w J). unfold no_obstacle in A. rewrite S in A.
      apply A; [congruence|exact W].
  - destruct I as (n & p & I & H). apply local_in in I. destruct I as (w & W & E & S). cbn [and_then]. intros A. rewrite Forall_forall in A. specialize (A w W). unfold no_obstacle in A. rewrite S in A.
    destruct A as [A1 A2]. destruct H as [H|(c & H1 & H2)]; [contradiction|]. specialize (A2 c H1). congruence.
Qed.
End Inputs.

(** * The scripts *)
Section Scripts.
Variable abspath : text -> text.
Variable script : mode -> directory -> option directory.
Lemma run_worked m st st' : run_job script m st = Some st' -> worked script m st st'.
Proof.
  unfold run_job. destruct (script m (exposed m st)) as [d|] eqn:S; intros H; [|discriminate]. injection H as <-.
  exists (exposed m st), d. split; [exact S|]. split.
  - intros n. unfold exposed. destruct (st n) as [[c|c]|] eqn:E; [left; reflexivity|left; reflexivity|].
    destruct (list_eqb n (log_name m)) eqn:L; [right|left; reflexivity]. apply list_eqb_eq in L. repeat split; assumption.
  - intros n. reflexivity.
Qed.
Lemma worked_keeps m st st' n e : worked script m st st' -> st n = Some e -> st' n = Some e.
Proof. intros (v & d & _ & _ & G) E. rewrite (G n), E. reflexivity. Qed.
Lemma worked_stored m st st' n e : worked script m st st' -> st n = None -> st' n = Some e -> exists c, e = Stored c.
Proof. intros (v & d & _ & _ & G) E. rewrite (G n), E. destruct (d n) as [c|]; [|discriminate]. intros H. injection H as <-. exists c. reflexivity. Qed.
Lemma upload_bucket u n st : bucket u n -> (forall c, st n <> Some (Imported c)) -> upload abspath n u st = Some (put_of u n st).
Proof.
  intros (_ & r & ->) N. unfold upload, put_of. destruct (st n) as [[c|c]|] eqn:E; [exfalso; exact (N c eq_refl)| |reflexivity]. reflexivity.
Qed.
Lemma upload_some u n st up : bucket u n -> upload abspath n u st = Some up -> up = put_of u n st /\ forall c, st n <> Some (Imported c).
Proof.
  intros B H. assert (N : forall c, st n <> Some (Imported c)).
  { intros c E. unfold upload in H. rewrite E in H. discriminate. }
  split; [|exact N]. rewrite (upload_bucket u n st B N) in H. injection H as <-. reflexivity.
Qed.
Lemma and_then_some {A B} (o : option A) (f : A -> option B) b : and_then o f = Some b -> exists a, o = Some a /\ f a = Some b.
Proof. destruct o as [a|]; [intros H; exists a; split; [reflexivity|exact H]|discriminate]. Qed.
Lemma test_spec st D : test_only script st = Some D -> d_ran D = [Test] /\ d_uploads D = [] /\ worked script Test st (d_storage D).
Proof. intros H. apply and_then_some in H. destruct H as (s & H & E). injection E as <-. split; [reflexivity|split; [reflexivity|exact (run_worked _ _ _ H)]]. Qed.
Lemma build_spec b u st D : bucket u b -> build_test abspath script b u st = Some D ->
  d_ran D = [Build; Test] /\ exists s, worked script Build st s /\ worked script Test s (d_storage D) /\ d_uploads D = put_of u b s /\ forall c, s b <> Some (Imported c).
Proof.
  intros B H. apply and_then_some in H. destruct H as (s & H1 & H). apply and_then_some in H. destruct H as (up & H2 & H). apply and_then_some in H. destruct H as (D' & H3 & H).
  injection H as <-. apply test_spec in H3. destruct H3 as (T1 & T2 & T3). destruct (upload_some _ _ _ _ B H2) as [-> N]. cbn [d_ran d_uploads d_storage]. rewrite T1, T2, app_nil_r.
  split; [reflexivity|]. exists s. split; [exact (run_worked _ _ _ H1)|]. split; [exact T3|split; [reflexivity|exact N]].
Qed.
Lemma has_some st n e : st n = Some e -> has st n = true.
Proof. intros E. unfold has. rewrite E. reflexivity. Qed.
Lemma has_none st n : st n = None -> has st n = false.
Proof. intros E. unfold has. rewrite E. reflexivity. Qed.
Lemma do_first pu bu pre b st D : bucket pu pre -> bucket bu b -> st pre = None -> do_build abspath script pu bu st = Some D ->
  d_ran D = [Prebuild; Build; Test] /\
  exists s1 s2, worked script Prebuild st s1 /\ worked script Build s1 s2 /\ worked script Test s2 (d_storage D) /\ d_uploads D = put_of pu pre s1 ++ put_of bu b s2.
Proof.
  intros P B E H. unfold do_build in H. rewrite (basename_file _ _ (proj1 P)), (basename_file _ _ (proj1 B)), (has_none _ _ E) in H. cbn [negb] in H.
  apply and_then_some in H. destruct H as (s & H1 & H). apply and_then_some in H. destruct H as (up & H2 & H). apply and_then_some in H. destruct H as (D' & H3 & H).
  injection H as <-. apply build_spec in H3; [|exact B]. destruct H3 as (T1 & s2 & T2 & T3 & T4 & _). destruct (upload_some _ _ _ _ P H2) as [-> _]. cbn [d_ran d_uploads d_storage]. rewrite T1, T4.
  split; [reflexivity|]. exists s, s2. split; [exact (run_worked _ _ _ H1)|]. repeat split; assumption.
Qed.
Lemma do_second pu bu pre b st D e : bucket pu pre -> bucket bu b -> st pre = Some e -> st b = None -> do_build abspath script pu bu st = Some D ->
  d_ran D = [Build; Test] /\ exists s, worked script Build st s /\ worked script Test s (d_storage D) /\ d_uploads D = put_of bu b s.
Proof.
  intros P B E N H. unfold do_build in H. rewrite (basename_file _ _ (proj1 P)), (basename_file _ _ (proj1 B)), (has_some _ _ _ E), (has_none _ _ N) in H. cbn [negb] in H.
  destruct (build_spec _ _ _ _ B H) as (T1 & s & T2 & T3 & T4 & _). split; [exact T1|]. exists s. repeat split; assumption.
Qed.
Lemma do_third pu bu pre b st D e f : bucket pu pre -> bucket bu b -> st pre = Some e -> st b = Some f -> do_build abspath script pu bu st = Some D ->
  d_ran D = [Test] /\ d_uploads D = [] /\ worked script Test st (d_storage D).
Proof.
  intros P B E N H. unfold do_build in H. rewrite (basename_file _ _ (proj1 P)), (basename_file _ _ (proj1 B)), (has_some _ _ _ E), (has_some _ _ _ N) in H. cbn [negb] in H.
  exact (test_spec _ _ H).
Qed.
Lemma run_all m st : (forall v, script m v <> None) -> exists st', run_job script m st = Some st'.
Proof. intros A. unfold run_job. specialize (A (exposed m st)). destruct (script m (exposed m st)); [eexists; reflexivity|contradiction]. Qed.
Lemma build_succeeds b u st : (forall m v, script m v <> None) -> bucket u b -> (forall c, st b <> Some (Imported c)) -> exists D, build_test abspath script b u st = Some D.
Proof.
  intros A B N. unfold build_test. destruct (run_all Build st (A Build)) as (s & E). rewrite E. cbn [and_then].
  rewrite (upload_bucket u b s B).
  - cbn [and_then]. unfold test_only. destruct (run_all Test s (A Test)) as (s' & E'). rewrite E'. eexists. reflexivity.
  - intros c C. pose proof (run_worked _ _ _ E) as W. destruct (st b) as [e|] eqn:S.
    + pose proof (worked_keeps _ _ _ _ _ W S) as K. apply (N c). congruence.
    + destruct (worked_stored _ _ _ _ _ W S C) as (c' & K). discriminate.
Qed.
Lemma do_succeeds pu bu pre b st : (forall m v, script m v <> None) -> bucket pu pre -> bucket bu b -> (forall c, st b <> Some (Imported c)) ->
  exists D, do_build abspath script pu bu st = Some D.
Proof.
  intros A P B N. unfold do_build. rewrite (basename_file _ _ (proj1 P)), (basename_file _ _ (proj1 B)).
  destruct (has st pre) eqn:H1; cbn [negb].
  - destruct (has st b) eqn:H2; cbn [negb].
    + unfold test_only. destruct (run_all Test st (A Test)) as (s' & E'). rewrite E'. eexists. reflexivity.
    + apply build_succeeds; assumption.
  - destruct (run_all Prebuild st (A Prebuild)) as (s & E). rewrite E. cbn [and_then]. pose proof (run_worked _ _ _ E) as W.
    rewrite (upload_bucket pu pre s P).
    + cbn [and_then]. destruct (build_succeeds b bu s A B) as (D & H); [|rewrite H; eexists; reflexivity].
      intros c C. destruct (st b) as [e|] eqn:S; [pose proof (worked_keeps _ _ _ _ _ W S) as K; apply (N c); congruence|destruct (worked_stored _ _ _ _ _ W S C) as (c' & K); discriminate].
    + intros c C. unfold has in H1. destruct (st pre) as [e|] eqn:S; [discriminate|]. destruct (worked_stored _ _ _ _ _ W S C) as (c' & K). discriminate.
Qed.
(** The last script is the test, on what the run leaves *)
Lemma do_last pu bu pre b st D : bucket pu pre -> bucket bu b -> do_build abspath script pu bu st = Some D ->
  exists s, (forall n e, st n = Some e -> s n = Some e) /\ worked script Test s (d_storage D) /\ (forall c, In (bu, c) (d_uploads D) -> pu <> bu -> s b = Some (Stored c)).
Proof.
  intros P B H. destruct (st pre) as [e|] eqn:E; [destruct (st b) as [f|] eqn:F|].
  - destruct (do_third _ _ _ _ _ _ _ _ P B E F H) as (_ & U & W). exists st. split; [intros n x; exact (fun Q => Q)|]. split; [exact W|]. rewrite U. intros c [].
  - destruct (do_second _ _ _ _ _ _ _ P B E F H) as (_ & s & W1 & W2 & U). exists s. split; [intros n x; exact (worked_keeps _ _ _ _ _ W1)|]. split; [exact W2|].
    rewrite U. unfold put_of. destruct (s b) as [[c'|c']|]; intros c I _; try contradiction. destruct I as [I|[]]. injection I as <-. reflexivity.
  - destruct (do_first _ _ _ _ _ _ P B E H) as (_ & s1 & s & W0 & W1 & W2 & U). exists s.
    split; [intros n x Q; exact (worked_keeps _ _ _ _ _ W1 (worked_keeps _ _ _ _ _ W0 Q))|]. split; [exact W2|].
    rewrite U. intros c I N. apply in_app_or in I. destruct I as [I|I]; unfold put_of in I.
    + destruct (s1 pre) as [[c'|c']|]; try contradiction. destruct I as [I|[]]. injection I as I _. contradiction.
    + destruct (s b) as [[c'|c']|]; try contradiction. destruct I as [I|[]]. injection I as <-. reflexivity.
Qed.
End Scripts.
