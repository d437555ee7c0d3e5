(** Proofs about the command line of libcare-pkgbuild. *)
From Coq Require Import String.
From Verif Require Import Base BaseProofs StorageModel TextModel LoptModel LoptProofs InstModel PkoptModel PkoptSpec.
Open Scope list_scope.

Lemma leq_refl (s : text) : list_eqb s s = true.
Proof. apply list_eqb_eq. reflexivity. Qed.
Lemma leq_ne (a b : text) : a <> b -> list_eqb a b = false.
Proof. intros N. destruct (list_eqb a b) eqn:E; [apply list_eqb_eq in E; contradiction|reflexivity]. Qed.

(** * Names *)
Definition no_lead (r : text) : Prop := forall q, r <> SLASH :: q.
Lemma behind_none r : no_lead r -> no_slashes_behind r = r.
Proof.
  intros N. destruct r as [|c r]; [reflexivity|]. cbn [no_slashes_behind].
  destruct (Z.eq_dec c 47) as [->|M]; [exfalso; exact (N r eq_refl)|]. destruct c as [|p|p]; try reflexivity.
  do 6 (destruct p as [p|p|]; try reflexivity). contradiction M. reflexivity.
Qed.
Lemma behind_all k r : no_lead r -> no_slashes_behind (repeat SLASH k ++ r) = r.
Proof. intros N. induction k as [|k IH]; [apply behind_none, N|exact IH]. Qed.
Lemma rev_lead x : ~ ends_in_slash x -> no_lead (rev x).
Proof. intros N q E. apply N. exists (rev q). rewrite <- (rev_involutive x), E. reflexivity. Qed.
Lemma rev_rep k : rev (repeat SLASH k) = repeat SLASH k.
Proof.
  induction k as [|k IH]; [reflexivity|]. cbn [repeat rev]. rewrite IH. clear IH. induction k as [|k IH]; [reflexivity|]. cbn [repeat app]. rewrite IH. reflexivity.
Qed.
Lemma unslashed_all x k : ~ ends_in_slash x -> unslashed (x ++ repeat SLASH k) = x.
Proof. intros N. unfold unslashed. rewrite rev_app_distr, rev_rep, behind_all by (apply rev_lead, N). apply rev_involutive. Qed.
Lemma simple_end q n : simple n -> ~ ends_in_slash (q ++ n).
Proof.
  intros (N & M) (r & E). destruct (exists_last N) as (n' & c & ->). rewrite app_assoc in E. apply app_inj_tail in E. destruct E as (_ & ->).
  apply M. apply in_or_app. right. left. reflexivity.
Qed.
Lemma upto_simple n r : ~ In SLASH n -> upto_slash (n ++ SLASH :: r) = n /\ from_slash (n ++ SLASH :: r) = Some r /\ upto_slash n = n /\ from_slash n = None.
Proof.
  induction n as [|c n IH]; intros N; [repeat split|]. destruct IH as (A & B & C & D); [intros I; apply N; right; exact I|].
  cbn [app upto_slash from_slash]. destruct (Z.eqb_spec c 47) as [->|M]; [exfalso; apply N; left; reflexivity|]. rewrite A, B, C, D. repeat split.
Qed.
Lemma not_in_rev n : ~ In SLASH n -> ~ In SLASH (rev n).
Proof. intros N I. apply N. apply in_rev. exact I. Qed.

Lemma names q n k : simple n -> basename (q ++ n ++ repeat SLASH k) = match q with [] => n | _ => rev (upto_slash (rev (q ++ n))) end.
Proof.
  intros S. unfold basename. rewrite app_assoc, unslashed_all by (apply simple_end, S).
  destruct (q ++ n) as [|c x] eqn:E; [destruct S as [S _]; apply app_eq_nil in E; tauto|]. cbn [app].
  destruct q as [|d q]; [|reflexivity]. cbn [app] in E. subst n. destruct (upto_simple (rev (c :: x)) [] (not_in_rev _ (proj2 S))) as (_ & _ & U & _).
  rewrite U. apply rev_involutive.
Qed.
Lemma lies_names cd d pd : lies_at cd d pd -> project_dir cd d = pd.
Proof.
  intros [n k A S C|j n k A S C|p j n k A S P Q C]; unfold project_dir.
  - change (n ++ repeat SLASH k) with ([] ++ n ++ repeat SLASH k). rewrite (names [] n k S). unfold dirname. cbn [app].
    rewrite unslashed_all by (apply (simple_end [] n S)). destruct n as [|c m] eqn:E; [destruct S; contradiction|]. rewrite <- E in *.
    destruct (upto_simple (rev n) [] (not_in_rev _ (proj2 S))) as (_ & _ & _ & F). rewrite F, C. reflexivity.
  - rewrite (names _ n k S). unfold dirname. rewrite (app_assoc (repeat SLASH (Datatypes.S j)) n (repeat SLASH k)), unslashed_all by (apply simple_end, S).
    destruct (repeat SLASH (Datatypes.S j) ++ n) as [|c x] eqn:E; [discriminate|]. rewrite <- E. rewrite rev_app_distr, rev_rep. cbn [repeat app].
    destruct (upto_simple (rev n) (repeat SLASH j) (not_in_rev _ (proj2 S))) as (U & F & _ & _). rewrite F, U.
    replace (no_slashes_behind (repeat SLASH j)) with (@nil Z) by (rewrite <- (app_nil_r (repeat SLASH j)); rewrite behind_all; [reflexivity|intros q; discriminate]).
    rewrite C, rev_involutive. reflexivity.
  - rewrite (app_assoc p), (names _ n k S). unfold dirname. rewrite (app_assoc _ n (repeat SLASH k)), unslashed_all by (apply simple_end, S).
    destruct ((p ++ repeat SLASH (Datatypes.S j)) ++ n) as [|c x] eqn:E; [apply app_eq_nil in E; destruct E as [_ E]; destruct S as [S _]; contradiction|]. rewrite <- E.
    rewrite !rev_app_distr, rev_rep. cbn [repeat app].
    destruct (upto_simple (rev n) (repeat SLASH j ++ rev p) (not_in_rev _ (proj2 S))) as (U & F & _ & _). rewrite F, U, behind_all by (apply rev_lead, Q).
    destruct (rev p) as [|y z] eqn:R; [apply (f_equal (@rev Z)) in R; rewrite rev_involutive in R; contradiction|]. rewrite <- R, !rev_involutive, C.
    destruct (p ++ SLASH :: repeat SLASH j) eqn:X; [destruct p; discriminate|reflexivity].
Qed.
Lemma project_some cd w : project_dir cd w <> [].
Proof. unfold project_dir. intros E. apply app_eq_nil in E. destruct E as [_ E]. discriminate. Qed.

(** * The command line *)
Lemma prepare_option cd w a r x pd : option_word w a -> prepare cd (w :: r) x pd = prepare cd r a pd.
Proof. intros []; reflexivity. Qed.
Lemma prepare_options cd o : forall r x pd, options o -> exists y, prepare cd (o ++ r) x pd = prepare cd r y pd /\ (o = [] /\ y = x \/ exists o' w, o = o' ++ [w] /\ option_word w y).
Proof.
  induction o as [|w o IH]; intros r x pd H; [exists x; split; [reflexivity|left; split; reflexivity]|].
  inversion H as [|? ? (a & W) H']; subst. destruct (IH r a pd H') as (y & E & K). exists y. cbn [app].
  rewrite (prepare_option cd w a _ x pd W), E. split; [reflexivity|]. right. destruct K as [[-> ->]|(o' & v & -> & V)]; [exists [], w; split; [reflexivity|exact W]|].
  exists (w :: o'), v. split; [reflexivity|exact V].
Qed.
Lemma word_cases w : w <> [] -> (exists a, option_word w a) \/ help_word w \/
  (list_eqb w [] = false /\ is_one w "-p" "--prebuild" = false /\ is_one w "-t" "--test" = false /\ is_one w "-h" "--help" = false).
Proof.
  intros N. unfold is_one.
  destruct (list_eqb w (str "-p")) eqn:E1; [apply list_eqb_eq in E1; subst; left; eexists; constructor|].
  destruct (list_eqb w (str "--prebuild")) eqn:E2; [apply list_eqb_eq in E2; subst; left; eexists; constructor|].
  destruct (list_eqb w (str "-t")) eqn:E3; [apply list_eqb_eq in E3; subst; left; eexists; constructor|].
  destruct (list_eqb w (str "--test")) eqn:E4; [apply list_eqb_eq in E4; subst; left; eexists; constructor|].
  destruct (list_eqb w (str "-h")) eqn:E5; [apply list_eqb_eq in E5; right; left; left; exact E5|].
  destruct (list_eqb w (str "--help")) eqn:E6; [apply list_eqb_eq in E6; right; left; right; exact E6|].
  right. right. rewrite (leq_ne w [] N). repeat split.
Qed.
Lemma dir_begins d : dir_word d -> begins (str "-") d = false.
Proof. intros (_ & N). destruct (begins (str "-") d) eqn:B; [|reflexivity]. apply begins_spec in B. destruct B as (r & ->). exfalso. exact (N r eq_refl). Qed.
Lemma prepare_dir cd d r x : dir_word d -> prepare cd (d :: r) x [] = prepare cd r x (project_dir cd d).
Proof.
  intros D. destruct (word_cases d (proj1 D)) as [(a & W)|[W|(A & B & C & E)]].
  - exfalso. destruct W; destruct D as [_ D]; eapply D; reflexivity.
  - exfalso. destruct W as [->| ->]; destruct D as [_ D]; eapply D; reflexivity.
  - cbn [prepare]. rewrite A, B, C, E, (dir_begins d D). reflexivity.
Qed.
Lemma prepare_help cd w r x pd : help_word w -> prepare cd (w :: r) x pd = Help.
Proof. intros [->| ->]; reflexivity. Qed.
Lemma prepare_unknown cd w r x pd : w <> [] -> ~ (exists a, option_word w a) -> ~ help_word w -> pd <> [] \/ (exists q, w = DASH :: q) ->
  prepare cd (w :: r) x pd = Unknown w.
Proof.
  intros N O H K. destruct (word_cases w N) as [W|[W|(A & B & C & E)]]; [contradiction|contradiction|].
  cbn [prepare]. rewrite A, B, C, E. replace (negb (list_eqb pd []) || begins (str "-") w) with true; [reflexivity|]. symmetry. apply orb_true_iff.
  destruct K as [K|(q & ->)]; [left; rewrite (leq_ne pd [] K); reflexivity|right; apply begins_spec; exists q; reflexivity].
Qed.

(** * The work *)
Lemma split_plain s : plain s -> forall cur, cur ++ s <> [] -> split_words cur s = [cur ++ s].
Proof.
  intros P. induction s as [|c s IH]; intros cur N; cbn [split_words].
  - rewrite app_nil_r in *. destruct cur; [contradiction|reflexivity].
  - destruct (P c (or_introl eq_refl)) as (A & B & C). unfold ws. replace ((c =? 32) || (c =? 9) || (c =? 10)) with false by lia.
    rewrite (IH (fun x I => P x (or_intror I)) (cur ++ [c])) by (destruct cur; discriminate). rewrite <- app_assoc. reflexivity.
Qed.
Lemma plain_app a b : plain a -> plain b -> plain (a ++ b).
Proof. intros P Q c I. apply in_app_or in I. destruct I; auto. Qed.
Lemma run_carried works l : exists done z, run works l = (map Ran done, z) /\ carried_out works l done z.
Proof.
  induction l as [|s l (done & z & E & K)]; [exists [], 0; split; [reflexivity|left; repeat split; intros s []]|].
  cbn [run]. destruct (works s) eqn:W.
  - rewrite E. exists (s :: done), z. split; [reflexivity|]. destruct K as [(-> & -> & K)|(-> & b & t & a & -> & -> & T & K)].
    + left. repeat split. intros t [<-|I]; [exact W|exact (K t I)].
    + right. split; [reflexivity|]. exists (s :: b), t, a. repeat split; [exact T|]. intros x [<-|I]; [exact W|exact (K x I)].
  - exists [s], 1. split; [reflexivity|]. right. split; [reflexivity|]. exists [], s, l. repeat split; [exact W|]. intros t [].
Qed.
Lemma steps_work a : work a (steps a).
Proof. destruct a; constructor. Qed.
Lemma work_unique a l : work a l -> l = steps a.
Proof. intros []; reflexivity. Qed.
