(** Proofs about the library that announces programs. *)
From Coq Require Import String.
From Verif Require Import Base BaseProofs StorageModel LoopModel ServModel ExecModel ExecSpec.
Open Scope list_scope.

(** ** Strings. *)
Lemma begins_iff p : forall s, begins p s = true <-> prefix p s.
Proof.
  induction p as [|a p IH]; intro s; cbn [begins].
  - split; [intros _; exists s; reflexivity|reflexivity].
  - destruct s as [|b s]; [split; [discriminate|intros (r & E); discriminate E]|].
    rewrite andb_true_iff, Z.eqb_eq, IH. split.
    + intros (-> & r & ->). exists r. reflexivity.
    + intros (r & E). injection E as -> ->. split; [reflexivity|exists r; reflexivity].
Qed.
Lemma begins_stop x : forall p u r, ~ In x p -> begins p (u ++ x :: r) = begins p u.
Proof.
  induction p as [|a p IH]; intros u r N; [destruct u; reflexivity|].
  destruct u as [|c u]; cbn [app begins].
  - destruct (Z.eqb_spec a x) as [->|Na]; [destruct N; left; reflexivity|reflexivity].
  - rewrite IH; [reflexivity|]. intro H. apply N. right. exact H.
Qed.
Lemma strstr_some p : forall s k, strstr p s = Some k -> exists a b, s = a ++ p ++ b /\ length a = k.
Proof.
  induction s as [|c s IH]; intros k H; cbn [strstr] in H.
  - destruct (begins p []) eqn:B; [|discriminate H]. apply some_inj in H. subst k. apply begins_iff in B. destruct B as (r & ->). exists [], r. auto.
  - destruct (begins p (c :: s)) eqn:B.
    + apply some_inj in H. subst k. apply begins_iff in B. destruct B as (r & ->). exists [], r. auto.
    + destruct (strstr p s) as [j|]; [|discriminate H]. cbn in H. apply some_inj in H. subst k.
      destruct (IH j eq_refl) as (a & b & -> & <-). exists (c :: a), b. auto.
Qed.
Lemma strstr_none p : forall s, strstr p s = None <-> ~ infix p s.
Proof.
  intro s. split.
  - induction s as [|c s IH]; cbn [strstr]; intros H (a & b & E).
    + destruct (begins p []) eqn:B; [discriminate H|]. destruct a; [|discriminate E]. cbn [app] in E.
      rewrite E in B. rewrite <- not_true_iff_false in B. apply B. apply begins_iff. exists b. reflexivity.
    + destruct (begins p (c :: s)) eqn:B; [discriminate H|]. destruct (strstr p s); [discriminate H|].
      destruct a as [|d a]; cbn [app] in E.
      * rewrite <- not_true_iff_false in B. apply B. apply begins_iff. exists b. exact E.
      * injection E as -> E. apply IH; [reflexivity|]. exists a, b. exact E.
  - intro N. destruct (strstr p s) as [k|] eqn:E; [|reflexivity]. destruct N. destruct (strstr_some _ _ _ E) as (a & b & -> & _). exists a, b. reflexivity.
Qed.
(** After a piece that has no occurrence and ends at a character the pattern does not have. *)
Lemma strstr_skip x p : p <> [] -> ~ In x p -> forall u r, ~ infix p u ->
  strstr p (u ++ x :: r) = option_map (fun k => (length u + 1 + k)%nat) (strstr p r).
Proof.
  intros Np Nx. induction u as [|c u IH]; intros r N.
  - cbn [app strstr length]. pose proof (begins_stop x p [] r Nx) as B. cbn [app] in B. rewrite B. destruct p as [|a p]; [contradiction|]. reflexivity.
  - cbn [app strstr length]. change (c :: u ++ x :: r) with ((c :: u) ++ x :: r). rewrite (begins_stop x p (c :: u) r Nx).
    destruct (begins p (c :: u)) eqn:B.
    + apply begins_iff in B. destruct B as (t & E). destruct N. exists [], t. exact E.
    + rewrite IH; [destruct (strstr p r); reflexivity|]. intros (a & b & E). apply N. exists (c :: a), b. rewrite E. reflexivity.
Qed.
Lemma strstr_lib : forall d t, ~ infix this_lib d -> strstr this_lib (d ++ this_lib ++ t) = Some (length d).
Proof.
  assert (S : forall q, this_lib = 47 :: q -> ~ In 47 q).
  { intros q E. injection E as <-. intro H. cbn in H. repeat (destruct H as [H|H]; [discriminate H|]). destruct H. }
  assert (E : exists q, this_lib = 47 :: q) by (eexists; reflexivity). destruct E as (q & E). specialize (S q E). rewrite E. clear E.
  induction d as [|c d IH]; intros t N.
  - cbn [app strstr length]. assert (B : begins (47 :: q) (47 :: q ++ t) = true) by (apply begins_iff; exists t; reflexivity). rewrite B. reflexivity.
  - cbn [app strstr length]. destruct (begins (47 :: q) (c :: d ++ 47 :: q ++ t)) eqn:B.
    + cbn [begins] in B. apply andb_prop in B. destruct B as [B1 B2]. rewrite (begins_stop 47 q d _ S) in B2. destruct N.
      apply begins_iff in B2. destruct B2 as (r & ->). apply Z.eqb_eq in B1. subst c. exists [], r. reflexivity.
    + cbn [app] in IH. rewrite IH; [reflexivity|]. intros (a & b & E). apply N. exists (c :: a), b. rewrite E. reflexivity.
Qed.

(** ** The value. *)
Lemma libs_app b x a : b <> [] -> libs (b ++ x :: a) = libs b ++ 58 :: libs (x :: a).
Proof.
  induction b as [|y b IH]; [contradiction|]. intros _. destruct b as [|z b]; [reflexivity|].
  change (libs ((y :: z :: b) ++ x :: a)) with (y ++ 58 :: libs ((z :: b) ++ x :: a)). rewrite IH by discriminate.
  change (libs (y :: z :: b)) with (y ++ 58 :: libs (z :: b)). rewrite <- app_assoc. reflexivity.
Qed.
Lemma no_colon : ~ In 58 this_lib.
Proof. intro H. cbn in H. repeat (destruct H as [H|H]; [discriminate H|]). destruct H. Qed.
Lemma strstr_libs b : b <> [] -> Forall plain_lib b -> forall r, strstr this_lib (libs b ++ 58 :: r) = option_map (fun k => (length (libs b) + 1 + k)%nat) (strstr this_lib r).
Proof.
  intros N F r. induction F as [|x b Hx F IH]; [contradiction|]. destruct b as [|y b].
  - cbn [libs]. apply strstr_skip; [discriminate|exact no_colon|apply Hx].
  - change (libs (x :: y :: b)) with (x ++ 58 :: libs (y :: b)). rewrite <- app_assoc. cbn [app].
    rewrite strstr_skip; [|discriminate|exact no_colon|apply Hx]. rewrite IH by discriminate.
    destruct (strstr this_lib r); [|reflexivity]. cbn [option_map]. rewrite app_length. cbn [length]. f_equal. lia.
Qed.
Lemma back_colon val b : nth b val 0 = 58 -> forall k, (b <= k)%nat -> (forall i, (b < i <= k)%nat -> nth i val 0 <> 58) -> back val k = b.
Proof.
  intros Eb. induction k as [|k IH]; intros L N; [cbn; lia|]. cbn [back].
  destruct (Nat.eq_dec b (S k)) as [->|D]; [rewrite Eb; reflexivity|].
  destruct (Z.eqb_spec (nth (S k) val 0) 58) as [E|E]; [destruct (N (S k)); [lia|exact E]|]. apply IH; [lia|]. intros i Hi. apply N. lia.
Qed.
Lemma back_start val : forall k, (forall i, (0 < i <= k)%nat -> nth i val 0 <> 58) -> back val k = O.
Proof.
  induction k as [|k IH]; intros N; [reflexivity|]. cbn [back].
  destruct (Z.eqb_spec (nth (S k) val 0) 58) as [E|E]; [destruct (N (S k)); [lia|exact E]|]. apply IH. intros i Hi. apply N. lia.
Qed.
Lemma no_colon_nth d t i : ~ In 58 d -> (i <= length d)%nat -> nth i (d ++ this_lib ++ t) 0 <> 58.
Proof.
  intros N L E. destruct (Nat.eq_dec i (length d)) as [->|D].
  - rewrite app_nth2, Nat.sub_diag in E by lia. discriminate E.
  - rewrite app_nth1 in E by lia. apply N. rewrite <- E. apply nth_In. lia.
Qed.
Lemma has_colon s : existsb (Z.eqb 58) s = true <-> In 58 s.
Proof.
  rewrite existsb_exists. split; [intros (x & I & E); apply Z.eqb_eq in E; subst; exact I|intro I; exists 58; auto].
Qed.
(** The text before the library, up to the colon, and where the library's name begins. *)
Definition head_len (before : list text) : nat := match before with [] => O | _ => length (libs before) end.
Lemma find_lib before d t : Forall plain_lib before -> plain_lib d ->
  let lead := match before with [] => [] | _ => libs before ++ [58] end in
  let val := lead ++ d ++ this_lib ++ t in
  strstr this_lib val = Some (length lead + length d)%nat /\ back val (length lead + length d) = head_len before /\
  firstn (head_len before) val = libs before /\ skipn (length lead + length d + 11) val = skipn 1 t /\
  length val = (length lead + length d + 10 + length t)%nat.
Proof.
  intros F (Cd & Id) lead val. destruct before as [|b0 br].
  - subst lead. cbn [app length head_len libs] in *. rewrite Nat.add_0_l. subst val. repeat split.
    + apply strstr_lib, Id.
    + apply back_start. intros i Hi. apply no_colon_nth; [exact Cd|lia].
    + rewrite skipn_app, skipn_all2 by lia. replace (length d + 11 - length d)%nat with 11%nat by lia. reflexivity.
    + rewrite !app_length. change (length this_lib) with 10%nat. lia.
  - set (before := b0 :: br) in *. assert (Nb : before <> []) by discriminate. clearbody before.
    assert (EL : lead = libs before ++ [58]) by (subst lead; destruct before; [contradiction|reflexivity]).
    assert (EH : head_len before = length (libs before)) by (destruct before; [contradiction|reflexivity]).
    assert (EV : val = libs before ++ 58 :: d ++ this_lib ++ t) by (unfold val; rewrite EL, <- app_assoc; reflexivity).
    rewrite EH, EL, EV. rewrite app_length. cbn [length]. clear lead val EL EV. repeat split.
    + rewrite strstr_libs, strstr_lib by assumption. reflexivity.
    + apply back_colon; [rewrite app_nth2, Nat.sub_diag by lia; reflexivity|lia|]. intros i Hi.
      rewrite app_nth2 by lia. replace (i - length (libs before))%nat with (S (i - length (libs before) - 1)) by lia.
      cbn [nth]. apply no_colon_nth; [exact Cd|lia].
    + rewrite firstn_app, firstn_all, Nat.sub_diag. cbn [firstn]. apply app_nil_r.
    + rewrite skipn_app, skipn_all2 by lia. replace (length (libs before) + 1 + length d + 11 - length (libs before))%nat with (S (length d + 11)) by lia.
      cbn [skipn app]. rewrite skipn_app, skipn_all2 by lia. replace (length d + 11 - length d)%nat with 11%nat by lia. reflexivity.
    + rewrite app_length. cbn [length]. rewrite !app_length. change (length this_lib) with 10%nat. lia.
Qed.
Lemma libs_lead before x after : libs (before ++ x :: after) =
  match before with [] => [] | _ => libs before ++ [58] end ++ libs (x :: after).
Proof. destruct before as [|b br]; [reflexivity|]. rewrite libs_app by discriminate. rewrite <- app_assoc. reflexivity. Qed.
Lemma libs_this d after : libs (lib_in d :: after) = d ++ this_lib ++ match after with [] => [] | _ => 58 :: libs after end.
Proof. unfold lib_in. change (str "/execve.so") with this_lib. destruct after as [|a r]; cbn [libs]; rewrite <- ?app_assoc, ?app_nil_r; reflexivity. Qed.
Lemma value_cut before d after : Forall plain_lib before -> plain_lib d -> after <> [] -> before <> [] \/ d <> [] ->
  filter_value (libs (before ++ lib_in d :: after)) = VNew (preload ++ libs before ++ libs after).
Proof.
  intros F P Na NE. rewrite libs_lead, libs_this. destruct after as [|a r]; [contradiction|].
  destruct (find_lib before d (58 :: libs (a :: r)) F P) as (E1 & E2 & E3 & E4 & E5). cbv zeta in *.
  assert (NL : before <> [] -> length (libs before) = pred (length (match before with [] => [] | _ => libs before ++ [58] end)) /\
    (0 < length (match before with [] => [] | _ => libs before ++ [58%Z] end))%nat).
  { intro N. destruct before; [contradiction|]. rewrite app_length. cbn [length]. lia. }
  set (lead := match before with [] => [] | _ => _ end) in *. 
  assert (C : existsb (Z.eqb 58) (lead ++ d ++ this_lib ++ 58 :: libs (a :: r)) = true).
  { apply has_colon. apply in_or_app. right. apply in_or_app. right. apply in_or_app. right. left. reflexivity. }
  unfold filter_value. rewrite E1, C, E2, E3, E4, E5. cbn [negb skipn length]. cbv iota.
  replace (_ <? _)%nat with false by (symmetry; apply Nat.ltb_ge; lia).
  rewrite !app_length. change (length preload) with 11%nat.
  replace (_ <? _)%nat with false; [reflexivity|]. symmetry. apply Nat.ltb_ge.
  destruct before as [|b0 br].
  - destruct NE as [NE|NE]; [contradiction|]. subst lead. cbn [libs length]. destruct d; [contradiction|]. cbn [length]. lia.
  - destruct (NL ltac:(discriminate)) as (L1 & L2). lia.
Qed.
Lemma value_last before d : before <> [] -> Forall plain_lib before -> plain_lib d ->
  filter_value (libs (before ++ [lib_in d])) = VUndef.
Proof.
  intros N F P. rewrite libs_lead, libs_this.
  destruct (find_lib before d [] F P) as (E1 & E2 & E3 & E4 & E5). cbv zeta in *.
  unfold filter_value. rewrite E1.
  replace (existsb (Z.eqb 58) _) with true.
  - rewrite E5. cbn [negb length]. replace (_ <? _)%nat with true by (symmetry; apply Nat.ltb_lt; lia). reflexivity.
  - symmetry. apply has_colon. apply in_or_app. left. destruct before; [contradiction|]. apply in_or_app. right. left. reflexivity.
Qed.
Lemma value_root after : after <> [] -> filter_value (libs (lib_in [] :: after)) = VUndef.
Proof.
  intro N. destruct after as [|a r]; [contradiction|]. unfold filter_value, lib_in. change (str "/execve.so") with this_lib. cbn [app].
  change (libs (this_lib :: a :: r)) with (this_lib ++ 58 :: libs (a :: r)). generalize (libs (a :: r)). intro t.
  assert (E : strstr this_lib (this_lib ++ 58 :: t) = Some O) by (apply (strstr_lib [] (58 :: t)); intros (x & y & E); destruct x; discriminate E).
  rewrite E. replace (existsb (Z.eqb 58) _) with true by (symmetry; apply has_colon; apply in_or_app; right; left; reflexivity).
  cbn [negb back firstn app]. replace (skipn (0 + 11) (this_lib ++ 58 :: t)) with t by reflexivity.
  rewrite !app_length. change (length this_lib) with 10%nat. change (length preload) with 11%nat. cbn [length].
  replace (10 + S (length t) <? 0 + 11)%nat with false by (symmetry; apply Nat.ltb_ge; lia).
  replace (10 + S (length t) <? 11 + length t + 1)%nat with true by (symmetry; apply Nat.ltb_lt; lia). reflexivity.
Qed.
Lemma value_none v : ~ infix this_lib v \/ ~ In 58 v -> filter_value v = VSame.
Proof.
  intros [N|N]; unfold filter_value.
  - apply strstr_none in N. rewrite N. reflexivity.
  - destruct (strstr this_lib v); [|reflexivity]. rewrite <- has_colon in N. apply not_true_iff_false in N. rewrite N. reflexivity.
Qed.
Lemma value_new v x : filter_value v = VNew x -> prefix preload x /\ infix this_lib v /\ In 58 v.
Proof.
  unfold filter_value. destruct (strstr this_lib v) as [k|] eqn:E; [|discriminate]. destruct (existsb (Z.eqb 58) v) eqn:C; [|discriminate].
  cbn [negb]. destruct (_ <? _)%nat; [discriminate|]. destruct (_ <? _)%nat; [discriminate|]. intro H. injection H as <-.
  split; [eexists; reflexivity|]. split; [|apply has_colon, C]. destruct (strstr_some _ _ _ E) as (a & b & -> & _). exists a, b. reflexivity.
Qed.

(** ** All variables. *)
Lemma skip_preload v : skipn 11 (preload ++ v) = v.
Proof. reflexivity. Qed.
Lemma begins_preload v : begins preload (preload ++ v) = true.
Proof. apply begins_iff. exists v. reflexivity. Qed.
Lemma hd_true l : Forall (eq true) l -> hd true l = true /\ Forall (eq true) (tl l).
Proof. intro F. destruct F as [|x l E F]; cbn [hd tl]; auto. Qed.
Lemma vars_ok env env' : Forall2 var_after env env' -> forall alloc, Forall (eq true) alloc -> filter_vars alloc env = FOk env'.
Proof.
  induction 1 as [|e e' env env' V F IH]; intros alloc A; [reflexivity|]. cbn [filter_vars]. cbv zeta.
  destruct (hd_true _ A) as (Hh & Ht).
  destruct V as [e N|v N|v N|before d after Fb P Na NE].
  - destruct (begins preload e) eqn:B; [apply begins_iff in B; contradiction|]. rewrite (IH alloc A). reflexivity.
  - change (str "LD_PRELOAD=") with preload. rewrite begins_preload, skip_preload, value_none by (left; exact N). rewrite (IH alloc A). reflexivity.
  - change (str "LD_PRELOAD=") with preload. rewrite begins_preload, skip_preload, value_none by (right; exact N). rewrite (IH alloc A). reflexivity.
  - unfold ld_preload. change (str "LD_PRELOAD=") with preload. rewrite begins_preload, skip_preload, value_cut by assumption. rewrite Hh, (IH _ Ht). reflexivity.
Qed.
Lemma vars_others env : forall alloc env', filter_vars alloc env = FOk env' ->
  Forall2 (fun e e' => (e' <> e -> exists v, e = preload ++ v /\ infix this_lib v /\ In 58 v) /\ (prefix preload e -> prefix preload e')) env env'.
Proof.
  induction env as [|e env IH]; intros alloc env' H; cbn [filter_vars] in H; cbv zeta in H.
  - injection H as <-. constructor.
  - assert (K : forall a x, match filter_vars a env with FOk l => FOk (x :: l) | z => z end = FOk env' ->
      exists l, env' = x :: l /\ filter_vars a env = FOk l).
    { intros a x K. destruct (filter_vars a env) as [l| |]; try discriminate K. injection K as <-. exists l. auto. }
    destruct (begins preload e) eqn:B.
    + destruct (filter_value (skipn 11 e)) as [|x|] eqn:V.
      * apply K in H. destruct H as (l & -> & H). constructor; [split; [intro D; contradiction|auto]|exact (IH _ _ H)].
      * destruct (hd true alloc); [|discriminate H]. apply K in H. destruct H as (l & -> & H). constructor; [|exact (IH _ _ H)].
        apply value_new in V. apply begins_iff in B. destruct B as (v & ->). rewrite skip_preload in V. destruct V as (V1 & V2 & V3).
        split; [intros _; exists v; auto|intros _; exact V1].
      * destruct (hd true alloc); discriminate H.
    + apply K in H. destruct H as (l & -> & H). constructor; [split; [intro D; contradiction|auto]|exact (IH _ _ H)].
Qed.

(** ** The calls. *)
Lemma has_slash_iff f : has_slash f = true <-> In 47 f.
Proof.
  unfold has_slash. rewrite existsb_exists. split; [intros (x & I & E); apply Z.eqb_eq in E; subst; exact I|intro I; exists 47; auto].
Qed.
Lemma listed_none w f : w_pat w = None -> listed w f = Some false.
Proof. intro E. unfold listed. rewrite E. reflexivity. Qed.
Lemma listed_known w f m n : w_pat w = Some m -> known_as w f n -> listed w f = Some (m n).
Proof.
  intros E K. unfold listed. rewrite E. destruct K as [(H & ->)|(A & I & R)].
  - destruct H as [(r & ->)|H]; [reflexivity|]. destruct (has_slash f) eqn:S; [apply has_slash_iff in S; contradiction|]. rewrite andb_false_r. reflexivity.
  - apply has_slash_iff in I. rewrite I. destruct f as [|c f]; [discriminate I|].
    destruct (Z.eqb_spec c 47) as [->|Nc]; [destruct (A f); reflexivity|]. cbn [negb andb]. rewrite R. reflexivity.
Qed.
Lemma known_listed w f m b : w_pat w = Some m -> listed w f = Some b -> exists n, known_as w f n /\ m n = b.
Proof.
  intros E L. unfold listed in L. rewrite E in L. destruct (negb _ && has_slash f) eqn:S.
  - apply andb_prop in S. destruct S as [S1 S2]. apply has_slash_iff in S2. destruct (w_real w f) as [n|] eqn:R; [|discriminate L].
    cbn in L. apply some_inj in L. exists n. split; [|exact L]. right. repeat split; auto. intros r ->. discriminate S1.
  - apply some_inj in L. exists f. split; [|exact L]. left. split; [|reflexivity].
    destruct (has_slash f) eqn:H.
    + rewrite andb_true_r in S. apply negb_false_iff in S. destruct f as [|c f]; [discriminate S|]. apply Z.eqb_eq in S. subst c. left. eexists. reflexivity.
    + right. intro I. apply has_slash_iff in I. congruence.
Qed.
Lemma matched_listed w f : matched w f <-> listed w f = Some true.
Proof.
  split.
  - intros (m & n & E & K & M). rewrite (listed_known _ _ _ _ E K), M. reflexivity.
  - intro L. destruct (w_pat w) as [m|] eqn:E; [|rewrite (listed_none _ _ E) in L; discriminate L].
    destruct (known_listed _ _ _ _ E L) as (n & K & M). exists m, n. auto.
Qed.
Lemma unmatched_listed w f : unmatched w f <-> listed w f = Some false.
Proof.
  split.
  - intro U. destruct (w_pat w) as [m|] eqn:E; [|apply listed_none, E]. destruct (U m E) as (n & K & M). rewrite (listed_known _ _ _ _ E K), M. reflexivity.
  - intros L m E. apply (known_listed _ _ _ _ E L).
Qed.
Lemma collect_spec args : forall i acc, 0 <= i -> i = zlen acc -> collect i acc args = if (1024 <=? i + zlen args) && (0 <? zlen args) && (i <? 1024) then None else Some (acc ++ args).
Proof.
  induction args as [|a r IH]; intros i acc P E; cbn [collect].
  - change (zlen []) with 0. rewrite andb_false_r, app_nil_r. reflexivity.
  - assert (Z1 : zlen (a :: r) = zlen r + 1) by (unfold zlen; cbn [length]; lia). pose proof (zlen_nonneg r).
    destruct (Z.eqb_spec (i + 1) 1024) as [E1|N1].
    + replace (_ && _ && _) with true; [reflexivity|]. rewrite Z1. lia.
    + rewrite IH; [|lia|unfold zlen in *; rewrite app_length; cbn [length]; lia]. rewrite <- app_assoc. cbn [app]. rewrite Z1.
      match goal with |- (if ?a then _ else _) = (if ?b then _ else _) => replace a with b; [reflexivity|] end. lia.
Qed.
Lemma collect_all args : collect 0 [] args = if (1024 <=? length args)%nat then None else Some args.
Proof.
  rewrite collect_spec by (reflexivity || lia). cbn [app].
  match goal with |- (if ?a then _ else _) = (if ?b then _ else _) => replace a with b; [reflexivity|] end. unfold zlen.
  destruct (Nat.leb_spec 1024 (length args)); lia.
Qed.
Lemma encode_message w : message w = encode [str "execve"; dec (w_tid w)].
Proof. unfold message, encode. cbn [flat_map]. rewrite <- !app_assoc. cbn [app]. reflexivity. Qed.

(** Every call in terms of execve. *)
Definition searching (c : call) : bool := match c with Execvpe _ _ _ | Execvp _ _ | Execlp _ _ => true | _ => false end.
Lemma run_cases w c :
  (too_many c /\ run w c = ([], Failed 38)) \/
  (~ too_many c /\ in_path c /\ run w c = ([ExecSearch (file c) (args_of c) (env_of w c)], after (w_search w (file c) (args_of c) (env_of w c)))) \/
  (~ too_many c /\ ~ in_path c /\ run w c = execve_ w (file c) (args_of c) (env_of w c)).
Proof.
  assert (X : forall f a e, (~ In 47 f /\ execvpe_ w f a e = ([ExecSearch f a e], after (w_search w f a e))) \/ (~ ~ In 47 f /\ execvpe_ w f a e = execve_ w f a e)).
  { intros f a e. unfold execvpe_. destruct (has_slash f) eqn:S; [right|left]; split; try reflexivity.
    - intro N. apply N, has_slash_iff, S.
    - intro I. apply has_slash_iff in I. congruence. }
  assert (V : forall f a e s, ((1024 <= length a)%nat /\ vexecle w f a e s = ([], Failed 38)) \/
     (~ (1024 <= length a)%nat /\ vexecle w f a e s = if s then execvpe_ w f a e else execve_ w f a e)).
  { intros f a e s. unfold vexecle. rewrite collect_all. destruct (Nat.leb_spec 1024 (length a)); [left; auto|right; split; [lia|reflexivity]]. }
  destruct c as [f a e|f a|f a e|f a|f a|f a|f a e]; cbn [run too_many in_path file args_of env_of].
  - right; right; auto.
  - right; right; auto.
  - right. destruct (X f a e) as [(N & ->)|(N & ->)]; [left|right]; auto.
  - right. destruct (X f a (w_environ w)) as [(N & ->)|(N & ->)]; [left|right]; auto.
  - destruct (V f a (w_environ w) false) as [(N & ->)|(N & ->)]; [left; auto|right; right; auto].
  - destruct (V f a (w_environ w) true) as [(N & ->)|(N & ->)]; [left; auto|right]. destruct (X f a (w_environ w)) as [(N' & ->)|(N' & ->)]; [left|right]; auto.
  - destruct (V f a e false) as [(N & ->)|(N & ->)]; [left; auto|right; right; auto].
Qed.
Lemma dec_length n : (length (dec n) <= 10)%nat.
Proof.
  assert (G : forall f m acc, (length (dec_rec f m acc) <= f + length acc)%nat).
  { induction f as [|f IH]; intros m acc; cbn [dec_rec]; [lia|]. cbv zeta. destruct (m <? 10); [cbn [length]; lia|].
    specialize (IH (m / 10) ((48 + m mod 10) :: acc)). cbn [length] in IH. lia. }
  specialize (G 10%nat n []). cbn [length] in G. unfold dec. lia.
Qed.
