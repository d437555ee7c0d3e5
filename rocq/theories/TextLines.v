(** Proofs about the lines of a file and the statements of a line. *)
From Coq Require Import String.
From Verif Require Import Base BaseProofs StorageModel TextModel TextSpec TextProofs.
Open Scope list_scope.

(** ** Reading a file *)
Lemma fgets_spec n : forall s a b, fgets n s = (a, b) ->
  s = a ++ b /\ ((exists l, a = l ++ [10] /\ ~ In 10 l) \/ (~ In 10 a)) /\ (n <> 0%nat -> s <> [] -> a <> []).
Proof.
  induction n as [|n IH]; intros [|c s] a b; simpl; intros H.
  - injection H as <- <-. repeat split; auto; congruence.
  - injection H as <- <-. repeat split; auto; congruence.
  - injection H as <- <-. repeat split; auto; congruence.
  - destruct (c =? 10) eqn:E.
    + apply Z.eqb_eq in E; subst. injection H as <- <-. repeat split; try discriminate. left; exists []; auto.
    + apply Z.eqb_neq in E. destruct (fgets n s) as [a' b'] eqn:Ef. injection H as <- <-.
      destruct (IH _ _ _ Ef) as (-> & C & _). repeat split; try discriminate.
      destruct C as [(l & -> & N)|N].
      * left. exists (c :: l); split; auto. intros [?|?]; auto.
      * right. intros [?|?]; auto.
Qed.
Lemma fgets_all_ok n buf : forall s, (length s <= n)%nat -> buf <> 0%nat -> exists ls, fgets_all n buf s = Ok ls.
Proof.
  induction n as [|n IH]; intros [|c s] Hn Hb; simpl in Hn; try lia; try (exists []; reflexivity).
  cbn [fgets_all]. destruct (fgets buf (c :: s)) as [a b] eqn:Ef.
  destruct (fgets_spec _ _ _ _ Ef) as (E & _ & N). specialize (N Hb ltac:(discriminate)).
  pose proof (f_equal (@length Z) E) as L. rewrite app_length in L. simpl in L.
  destruct a; [congruence|]. simpl in L.
  destruct (IH b ltac:(lia) Hb) as (ls & ->). cbn [rbind]. eauto.
Qed.
Lemma drop_crlf_sub s : exists p, s = p ++ drop_crlf s /\ Forall (fun c => c = 10 \/ c = 13) p.
Proof.
  induction s as [|c s (p & E & F)]; simpl; [exists []; auto|].
  destruct ((c =? 10) || (c =? 13)) eqn:Ec.
  - exists (c :: p); split; [simpl; now f_equal|]. constructor; auto. apply orb_true_iff in Ec.
    rewrite !Z.eqb_eq in Ec; tauto.
  - exists []; auto.
Qed.
Lemma trim_crlf_spec s : exists p, s = trim_crlf s ++ p /\ Forall (fun c => c = 10 \/ c = 13) p.
Proof.
  unfold trim_crlf. destruct (drop_crlf_sub (rev s)) as (p & E & F).
  exists (rev p); split; [|now apply Forall_rev].
  apply (f_equal (@rev Z)) in E. rewrite rev_involutive, rev_app_distr in E. exact E.
Qed.
Lemma trim_crlf_last s c : c <> 10 -> c <> 13 -> trim_crlf (s ++ [c]) = s ++ [c].
Proof.
  intros. unfold trim_crlf. rewrite rev_app_distr. simpl.
  replace (c =? 10) with false by (symmetry; now apply Z.eqb_neq).
  replace (c =? 13) with false by (symmetry; now apply Z.eqb_neq). simpl. now rewrite rev_involutive.
Qed.
Lemma trim_crlf_nl l : trim_crlf (l ++ [10]) = trim_crlf l.
Proof. unfold trim_crlf. now rewrite rev_app_distr. Qed.
Lemma upto_nul_prefix s : exists r, s = upto_nul s ++ r.
Proof.
  induction s as [|c s (r & E)]; simpl; [now exists []|].
  destruct (c =? 0); [eexists; reflexivity|]. exists r. simpl. now f_equal.
Qed.
Lemma no_newline_trim l a : ~ In 10 l -> a = l \/ a = l ++ [10] -> one_line (trim_crlf (upto_nul a)).
Proof.
  intros N H. unfold one_line.
  destruct (trim_crlf_spec (upto_nul a)) as (p & E & F).
  destruct (upto_nul_prefix a) as (r & Er).
  intros I.
  destruct H as [-> | ->].
  - apply N. rewrite Er, E. apply in_or_app; left. apply in_or_app; auto.
  - rewrite E in Er.
    (* the only newline is the last byte; if it is in the trimmed part, that ends with it *)
    destruct (in_split _ _ I) as (u & v & Ev). rewrite Ev in Er. rewrite <- !app_assoc in Er. simpl in Er.
    assert (v = [] /\ p = [] /\ r = []).
    { destruct (v ++ p ++ r) as [|x q] eqn:Eq.
      - apply app_eq_nil in Eq as (-> & Eq). apply app_eq_nil in Eq as (-> & ->). auto.
      - exfalso. apply N.
        assert (L : l = removelast (u ++ 10 :: x :: q)) by (rewrite <- Er; now rewrite removelast_last).
        rewrite L. rewrite removelast_app by discriminate. apply in_or_app; right. simpl. now left. }
    destruct H as (-> & -> & ->). rewrite app_nil_r in E.
    rewrite Ev in E, I. rewrite E in Ev. rewrite trim_crlf_nl in Ev.
    destruct (trim_crlf_spec u) as (q & Eu & _).
    apply (f_equal (@length Z)) in Ev. apply (f_equal (@length Z)) in Eu.
    rewrite app_length in *. simpl in Ev. lia.
Qed.
Lemma fgets_all_lines n buf : forall s ls, fgets_all n buf s = Ok ls -> Forall one_line ls.
Proof.
  induction n as [|n IH]; intros [|c s] ls H; cbn [fgets_all] in H; try discriminate; try (injection H as <-; constructor).
  destruct (fgets buf (c :: s)) as [a b] eqn:Ef.
  destruct (fgets_all n buf b) as [r| | |] eqn:E; cbn [rbind] in H; try discriminate.
  injection H as <-. constructor; eauto.
  destruct (fgets_spec _ _ _ _ Ef) as (_ & [(l & -> & N)|N] & _).
  - eapply no_newline_trim; eauto.
  - eapply no_newline_trim; eauto.
Qed.
Theorem read_file_lines buf content ls : read_file buf content = Ok ls -> Forall one_line ls.
Proof.
  unfold read_file. destruct (fgets_all _ buf content) as [r| | |] eqn:E; cbn [rbind]; try discriminate.
  intros [= <-]. constructor; [intros []|]. eapply fgets_all_lines; eauto.
Qed.

(** A file with lines of moderate length is read line by line. *)
Lemma fgets_line buf l s : ~ In 10 l -> (length l < buf)%nat -> fgets buf (l ++ 10 :: s) = (l ++ [10], s).
Proof.
  revert buf; induction l as [|c l IH]; intros [|buf] N L; simpl in *; try lia; auto.
  replace (c =? 10) with false by (symmetry; apply Z.eqb_neq; intros ->; tauto).
  rewrite IH; auto; try tauto; lia.
Qed.
Lemma fgets_short buf l : ~ In 10 l -> (length l <= buf)%nat -> fgets buf l = (l, []).
Proof.
  revert buf; induction l as [|c l IH]; intros [|buf] N L; simpl in *; try lia; auto.
  replace (c =? 10) with false by (symmetry; apply Z.eqb_neq; intros ->; tauto).
  rewrite IH; auto; try tauto; lia.
Qed.
Lemma upto_nul_none s : ~ In 0 s -> upto_nul s = s.
Proof.
  induction s as [|c s IH]; simpl; auto. intros H.
  replace (c =? 0) with false by (symmetry; apply Z.eqb_neq; intros ->; tauto). f_equal. tauto.
Qed.
Theorem read_file_spec buf content ls :
  lines_of content ls -> ~ In 0 content -> Forall (fun l => (length l < buf)%nat) ls ->
  read_file buf content = Ok ([] :: map trim_crlf ls).
Proof.
  intros L Z0 F. unfold read_file.
  enough (G : forall n, (length content <= n)%nat -> fgets_all n buf content = Ok (map trim_crlf ls)).
  { rewrite G by auto. reflexivity. }
  revert Z0 F. induction L as [|s Hs N|l s ls N L IH]; intros Z0 F n Hn.
  - destruct n; reflexivity.
  - inversion F as [|? ? F1 _]; subst.
    destruct n; [destruct s; [congruence|simpl in Hn; lia]|].
    destruct s as [|c s]; [congruence|]. cbn [fgets_all]. rewrite fgets_short by (auto; lia).
    destruct n; cbn [fgets_all rbind map]; rewrite upto_nul_none by auto; reflexivity.
  - inversion F as [|? ? F1 F2]; subst. rewrite app_length in Hn. simpl in Hn.
    destruct n; [lia|]. 
    destruct (l ++ 10 :: s) as [|c0 s0] eqn:E0; [destruct l; discriminate|].
    cbn [fgets_all]. rewrite <- E0 in *. rewrite fgets_line by auto.
    rewrite IH; [|intro; apply Z0; apply in_or_app; right; now right|auto|lia].
    cbn [rbind map]. rewrite upto_nul_none. 2:{ intro I. apply Z0. apply in_app_or in I as [I|[I|[]]].
      - apply in_or_app; auto. - discriminate. }
    now rewrite trim_crlf_nl.
Qed.

(** ** Statements *)
Lemma get_token_len (s : text) t s' : get_token (Some s) = (t, Some s') -> (length s' < length s)%nat.
Proof.
  intros E. destruct (get_token_spec _ _ _ _ E) as [(_ & _ & ?)|(_ & Hs & Ht & _ & _ & C)]; [discriminate|].
  destruct C as [(_ & ?)|(_ & [= ->])]; [discriminate|].
  destruct (skip_blanks_split s) as (g & Eg & _). destruct (skip_blanks_split (rest t)) as (g2 & Eg2 & _).
  pose proof (f_equal (@length Z) Eg) as L1. pose proof (f_equal (@length Z) Eg2) as L2. rewrite Hs in L1.
  rewrite !app_length in L1. rewrite app_length in L2. destruct (txt t); [congruence|simpl in L1; lia].
Qed.
Definition cut_ok (s : text) (c : cut) : Prop :=
  match c with
  | Comment => True
  | Cut p None => p = s \/ exists q, s = p ++ 59 :: q /\ ends (skip_blanks q)
  | Cut p (Some r) => (exists g, s = p ++ 59 :: g ++ r /\ blank g /\ ~ ends r)
                      \/ (exists p', s = p' ++ 58 :: r /\ p = p' ++ [58] /\ r <> [])
  end.
Lemma firstn_cut (p q : text) : firstn (length (p ++ q) - length q) (p ++ q) = p.
Proof.
  rewrite app_length. replace (length p + length q - length q)%nat with (length p) by lia.
  rewrite firstn_app, Nat.sub_diag, firstn_all. simpl. now rewrite app_nil_r.
Qed.
Lemma statement_spec a n : forall (s pre se : text) first, s = pre ++ se -> (length se < n)%nat ->
  exists c, statement a n s (Some se) first = Ok c /\ cut_ok s c.
Proof.
  induction n as [|n IH]; intros s pre se first Hs Hn; [lia|].
  cbn [statement]. destruct (get_token (Some se)) as [t se'] eqn:E.
  destruct (is_hash a (txt t)); [eexists; split; [reflexivity|exact I]|].
  destruct (same (txt t) [59]) eqn:Es.
  - apply same_spec in Es. eexists; split; [reflexivity|].
    destruct (get_token_spec _ _ _ _ E) as [(_ & -> & _)|(_ & Hk & Ht & _ & _ & C)]; [discriminate|].
    destruct (skip_blanks_split se) as (g & Eg & _). rewrite Hk in Eg.
    assert (Ep : firstn (length s - length (txt t ++ rest t)) s = pre ++ g).
    { rewrite Hs, Eg, app_assoc. apply firstn_cut. }
    rewrite Ep. rewrite Es in Eg. simpl in Eg.
    destruct C as [(He & ->)|(He & ->)]; simpl.
    + right. exists (rest t). split; auto. rewrite Hs, Eg. now rewrite <- app_assoc.
    + left. destruct (skip_blanks_split (rest t)) as (g2 & Eg2 & B2). exists g2. repeat split; auto.
      rewrite Hs, Eg, <- app_assoc. now rewrite Eg2 at 1.
  - assert (K : forall x, se' = x -> exists c, match x with
        | Some (58 :: r) => if first && negb (list_eqb r []) then Ok (Cut (firstn (length s - length (58 :: r) + 1) s) (Some r))
                            else statement a n s x false
        | _ => statement a n s x false end = Ok c /\ cut_ok s c).
    2:{ destruct (K se' eq_refl) as (c & Hc & Hk). exists c; split; auto. }
    intros x ->.
    assert (G : exists c, statement a n s x false = Ok c /\ cut_ok s c).
    { destruct x as [e|].
      - destruct (get_token_spec _ _ _ _ E) as [(_ & _ & ?)|(_ & Hk & Ht & _ & _ & C)]; [discriminate|].
        destruct C as [(_ & ?)|(_ & [= ->])]; [discriminate|].
        destruct (skip_blanks_split se) as (g & Eg & _). destruct (skip_blanks_split (rest t)) as (g2 & Eg2 & _).
        rewrite Hk in Eg.
        apply (IH s (pre ++ g ++ txt t ++ g2)).
        + rewrite Hs, Eg. rewrite Eg2 at 1. now rewrite <- !app_assoc.
        + pose proof (get_token_len _ _ _ E). lia.
      - exists (Cut s None). split; [destruct n; reflexivity|]. now left. }
    destruct x as [e|]; auto. destruct e as [|c r]; auto.
    destruct (Z.eq_dec c 58) as [->|N].
    2:{ destruct c as [|p|p]; auto. do 6 (destruct p as [p|p|]; auto). all: congruence. }
    destruct (first && negb (list_eqb r [])) eqn:Ef; auto.
    apply andb_true_iff in Ef as (_ & Er). apply negb_true_iff in Er.
    eexists; split; [reflexivity|]. simpl. right.
    destruct (get_token_spec _ _ _ _ E) as [(_ & _ & ?)|(_ & Hk & Ht & _ & _ & C)]; [discriminate|].
    destruct C as [(_ & ?)|(_ & [= He])]; [discriminate|].
    destruct (skip_blanks_split se) as (g & Eg & _). destruct (skip_blanks_split (rest t)) as (g2 & Eg2 & _).
    rewrite Hk in Eg. rewrite <- He in Eg2.
    assert (S2 : s = (pre ++ g ++ txt t ++ g2) ++ 58 :: r) by (rewrite Hs, Eg, Eg2, <- !app_assoc; reflexivity).
    exists (pre ++ g ++ txt t ++ g2). repeat split; auto.
    + rewrite S2. rewrite app_length. simpl length.
      set (u := pre ++ g ++ txt t ++ g2).
      replace (length u + S (length r) - S (length r) + 1)%nat with (length (u ++ [58])) by (rewrite app_length; simpl; lia).
      change (u ++ 58 :: r) with (u ++ [58] ++ r). rewrite app_assoc.
      rewrite firstn_app, Nat.sub_diag, firstn_all. simpl. now rewrite app_nil_r.
    + intros ->. discriminate.
Qed.
Lemma blank_ends q : one_line q -> ends (skip_blanks q) -> blank q.
Proof.
  intros O E. destruct (skip_blanks_split q) as (g & Eg & B).
  rewrite (ends_one_line (skip_blanks q)) in Eg; auto.
  - rewrite app_nil_r in Eg. now subst.
  - intro I. apply O. rewrite Eg. apply in_or_app; auto.
Qed.
Lemma one_line_app a b : one_line (a ++ b) <-> one_line a /\ one_line b.
Proof. unfold one_line. rewrite in_app_iff. tauto. Qed.
Lemma statements_spec a n : forall s : text, (length s < n)%nat -> one_line s -> s <> [] ->
  exists ps, statements a n (Some s) = Ok ps /\ split_of s (map fst ps).
Proof.
  induction n as [|n IH]; intros s Hn O Hs; [lia|].
  destruct (statement_spec a (S (length s)) s [] s true eq_refl ltac:(lia)) as (c & Hc & Hk).
  destruct s as [|c0 s0] eqn:Es0; [congruence|]. rewrite <- Es0 in *. clear Hs.
  assert (U : statements a (S n) (Some s) =
    do c <- statement a (S (length s)) s (Some s) true;
    match c with Comment => Ok [(s, false)] | Cut p s' => do r <- statements a n s'; Ok ((p, true) :: r) end)
    by (rewrite Es0; reflexivity).
  rewrite U, Hc. cbn [rbind]. destruct c as [|p nx].
  - eexists; split; [reflexivity|]. simpl. constructor.
  - simpl in Hk. destruct nx as [r|].
    + assert (L : (length r < length s)%nat /\ one_line r /\ r <> []).
      { destruct Hk as [(g & -> & B & E)|(p' & -> & -> & Hr)].
        - rewrite !app_length. simpl. rewrite app_length. split; [lia|].
          split; [|intros ->; apply E; now left]. apply one_line_app in O as (_ & O).
          change (59 :: g ++ r) with ([59] ++ g ++ r) in O. rewrite !one_line_app in O. tauto.
        - rewrite app_length. simpl. split; [lia|]. split; auto. apply one_line_app in O as (_ & O).
          change (58 :: r) with ([58] ++ r) in O. rewrite one_line_app in O. tauto. }
      destruct L as (L & O' & Hr).
      destruct (IH r) as (ps & -> & Hps); auto; [lia|]. cbn [rbind]. eexists; split; [reflexivity|]. simpl.
      destruct Hk as [(g & -> & B & E)|(p' & -> & -> & _)]; constructor; auto.
    + destruct n; cbn [statements rbind]; (eexists; split; [reflexivity|]); simpl;
        (destruct Hk as [->|(q & -> & E)]; [constructor|]);
        apply so_semi_end; apply blank_ends; auto; apply one_line_app in O as (_ & O);
        change (59 :: q) with ([59] ++ q) in O; rewrite one_line_app in O; tauto.
Qed.
Lemma first_owned (ps : list (text * bool)) :
  map fst (match ps with (p, false) :: q => (p, true) :: q | _ => ps end) = map fst ps.
Proof. destruct ps as [|[p []] q]; reflexivity. Qed.
Theorem split_line_spec a s : one_line s -> exists ps, split_line a s = Ok ps /\ split_of s (map fst ps).
Proof.
  intros O. unfold split_line. destruct (existsb _ s) eqn:E.
  - assert (s <> []) by (intros ->; discriminate).
    destruct (statements_spec a (S (length s)) s) as (ps & -> & H1); auto. cbn [rbind].
    eexists; split; [reflexivity|]. now rewrite first_owned.
  - eexists; split; [reflexivity|]. constructor.
Qed.
Lemma multilines_ok a : forall ls i, Forall one_line ls -> exists q, multilines_from a i ls = Ok q.
Proof.
  induction ls as [|s ls IH]; intros i F; [eexists; reflexivity|].
  inversion F; subst. cbn [multilines_from].
  destruct (split_line_spec a s) as (ps & -> & _); auto. destruct (IH (S i)) as (q & ->); auto.
  cbn [rbind]. eauto.
Qed.
