(** Proofs about the verdicts of tests/run_tests.sh. *)
From Coq Require Import String Ascii Lia.
From Verif Require Import Base TestsModel.
Open Scope string_scope.
Open Scope list_scope.
Open Scope Z_scope.

Definition no_word_end (a : string) : Prop :=
  a = "" \/ exists a' c, a = (a' ++ String c "")%string /\ word_char c = false.

Lemma prefix_app p s : prefix p s = true <-> exists b, s = (p ++ b)%string.
Proof.
  revert s. induction p as [|c p IH]; intros s.
  - split; [exists s; reflexivity|]. destruct s; reflexivity.
  - destruct s as [|d s].
    + split; [discriminate|]. intros [b H]; discriminate.
    + cbn [prefix append]. destruct (ascii_dec c d) as [->|N].
      * rewrite IH. split; intros [b H]; exists b; congruence.
      * split; [discriminate|]. intros [b H]. congruence.
Qed.

Fixpoint end_word (pw : bool) (a : string) : bool :=
  match a with
  | EmptyString => pw
  | String c r => end_word (word_char c) r
  end.

Lemma found_spec w p s : forall pw,
  found w pw p s = true <->
  exists a b, s = (a ++ p ++ b)%string /\ (w = true -> end_word pw a = false).
Proof.
  induction s as [|c s IH]; intros pw.
  - cbn [found]. rewrite orb_false_r, andb_true_iff, prefix_app. split.
    + intros [[b H] W]. exists "", b. split; [exact H|]. intros ->. cbn in *.
      destruct pw; [discriminate|reflexivity].
    + intros (a & b & H & W). destruct a; [|discriminate]. split; [exists b; exact H|].
      destruct w; [|reflexivity]. cbn in W. rewrite (W eq_refl). reflexivity.
  - cbn [found]. rewrite orb_true_iff, IH, andb_true_iff, prefix_app. split.
    + intros [[[b H] W]|(a & b & H & W)].
      * exists "", b. split; [exact H|]. intros ->. cbn in *.
        destruct pw; [discriminate|reflexivity].
      * exists (String c a), b. split; [cbn; congruence|exact W].
    + intros (a & b & H & W). destruct a as [|d a].
      * left. split; [exists b; exact H|]. destruct w; [|reflexivity].
        cbn in W. rewrite (W eq_refl). reflexivity.
      * right. cbn in H. injection H as -> H. exists a, b. split; [exact H|exact W].
Qed.

Lemma end_word_snoc a : forall pw c, end_word pw (a ++ String c "")%string = word_char c.
Proof. induction a as [|d a IH]; intros pw c; cbn; [reflexivity|apply IH]. Qed.

Lemma string_snoc a : a = "" \/ exists a' c, a = (a' ++ String c "")%string.
Proof.
  induction a as [|d a IH]; [left; reflexivity|right].
  destruct IH as [->|(a' & c & ->)].
  - exists "", d. reflexivity.
  - exists (String d a'), c. reflexivity.
Qed.

Lemma end_word_spec a : end_word false a = false <-> no_word_end a.
Proof.
  unfold no_word_end. destruct (string_snoc a) as [->|(a' & c & ->)].
  - split; [left; reflexivity|reflexivity].
  - rewrite end_word_snoc. split.
    + intros H. right. eauto.
    + intros [H|(a2 & c2 & E & H)].
      * destruct a'; discriminate.
      * assert (G := end_word_snoc a' false c). rewrite E, end_word_snoc in G. congruence.
Qed.

Lemma grep_spec ci w p ls :
  grep ci w p ls = true <->
  exists l a b, In l ls /\
    (if ci then low l else l) = (a ++ (if ci then low p else p) ++ b)%string /\
    (w = true -> no_word_end a).
Proof.
  unfold grep. rewrite existsb_exists. split.
  - intros (l & I & H). exists l. destruct ci; apply found_spec in H;
      destruct H as (a & b & E & W); exists a, b; repeat split; auto;
      intros X; apply end_word_spec; auto.
  - intros (l & a & b & I & E & W). exists l. split; [exact I|].
    destruct ci; apply found_spec; exists a, b; (split; [exact E|]);
      intros X; apply end_word_spec; auto.
Qed.

Lemma status_zero b : status b = 0 <-> b = true.
Proof. destruct b; cbn; split; congruence. Qed.

Lemma check_result_bit name out : check_result name out = 0 \/ check_result name out = 1.
Proof.
  unfold check_result, status.
  repeat match goal with |- context [if ?x then _ else _] => destruct x end; auto.
Qed.

Lemma unpatch_spec name before after :
  check_result_unpatch name before after = 0 <->
  check_result name before = 0 /\
  (if name =s "fail_unpatch" then check_result name after = 0
   else check_result name after <> 0).
Proof.
  unfold check_result_unpatch.
  destruct (check_result_bit name before) as [B|B], (check_result_bit name after) as [A|A];
    rewrite A, B; destruct (name =s "fail_unpatch"); cbn; intuition (try congruence; try lia).
Qed.

(** ** The loop *)

(** A test that is run and does not pass. *)
Definition bad (flavor arch : string) (rh : bool) (out : nat -> outputs) (i : nat)
    (name : string) : bool :=
  negb (should_skip flavor arch rh name)
  && negb (check flavor name (fst (out i)) (snd (out i)) =? 0).

(** The names at the places where [f] holds. *)
Fixpoint pick (f : nat -> string -> bool) (i : nat) (l : list string) : list string :=
  match l with
  | [] => []
  | x :: r => if f i x then x :: pick f (S i) r else pick f (S i) r
  end.

Definition join (acc : string) (l : list string) : string :=
  fold_left (fun a x => if a =s "" then x else (a ++ " " ++ x)%string) l acc.

Lemma loop_spec fl ar rh out tests : forall i c,
  let c' := test_loop fl ar rh out i tests c in
  ntotal c' = ntotal c + zlen tests /\
  nskipped c' = nskipped c + zlen (filter (should_skip fl ar rh) tests) /\
  nfailed c' = nfailed c + zlen (pick (bad fl ar rh out) i tests) /\
  nok c' + nfailed c' + nskipped c' - ntotal c' = nok c + nfailed c + nskipped c - ntotal c /\
  FAILED c' = join (FAILED c) (pick (bad fl ar rh out) i tests).
Proof.
  unfold zlen.
  induction tests as [|t r IH]; intros i c; cbn [test_loop].
  - cbn. repeat split; lia.
  - cbn zeta. cbn [filter pick].
    assert (Bd : bad fl ar rh out i t = bad fl ar rh out i t) by reflexivity.
    unfold bad at 2 in Bd.
    destruct (should_skip fl ar rh t); cbn [negb andb] in *; [rewrite Bd|].
    + specialize (IH (S i)
        (mkCounts (nskipped c + 1) (nfailed c) (nok c) (ntotal c + 1) (FAILED c))).
      cbn zeta in IH. cbn [nskipped nfailed nok ntotal FAILED] in *.
      destruct IH as (A & B & C & D & E). rewrite A, B, C, E.
      cbn [List.length]. repeat split; (lia || reflexivity).
    + destruct (check fl t (fst (out i)) (snd (out i)) =? 0) eqn:K; cbn [negb] in *; rewrite Bd.
      * specialize (IH (S i)
          (mkCounts (nskipped c) (nfailed c) (nok c + 1) (ntotal c + 1) (FAILED c))).
        cbn zeta in IH. cbn [nskipped nfailed nok ntotal FAILED] in *.
        destruct IH as (A & B & C & D & E). rewrite A, B, C, E.
        cbn [List.length]. repeat split; (lia || reflexivity).
      * specialize (IH (S i)
          (mkCounts (nskipped c) (nfailed c + 1) (nok c) (ntotal c + 1)
             (if FAILED c =s "" then t else (FAILED c ++ " " ++ t)%string))).
        cbn zeta in IH. cbn [nskipped nfailed nok ntotal FAILED] in *.
        destruct IH as (A & B & C & D & E). rewrite A, B, C, E.
        cbn [List.length]. repeat split; (lia || reflexivity).
Qed.

Lemma app_nil_l a b : (a ++ b)%string = "" -> a = "".
Proof. destruct a; [reflexivity|discriminate]. Qed.

Lemma join_nonempty l : forall acc, acc <> "" -> join acc l <> "".
Proof.
  induction l as [|x r IH]; intros acc N; cbn; [exact N|].
  destruct (acc =s "") eqn:E; [apply String.eqb_eq in E; contradiction|].
  apply IH. intros H. apply app_nil_l in H. contradiction.
Qed.

Lemma join_empty l : Forall (fun x => x <> "") l -> (join "" l = "" <-> l = []).
Proof.
  intros F. split; [|intros ->; reflexivity].
  destruct l as [|x r]; [reflexivity|]. intros H. exfalso. revert H.
  inversion F; subst. cbn. apply join_nonempty. assumption.
Qed.

Lemma pick_Forall (P : string -> Prop) f l : forall i, Forall P l -> Forall P (pick f i l).
Proof.
  induction l as [|x r IH]; intros i F; cbn; [constructor|].
  inversion F; subst. destruct (f i x); [constructor|]; auto.
Qed.

Lemma pick_nil f l : forall i,
  pick f i l = [] <->
  forall j x, nth_error l j = Some x -> f (i + j)%nat x = false.
Proof.
  induction l as [|x r IH]; intros i; cbn.
  - split; [|reflexivity]. intros _ j y H. destruct j; discriminate.
  - destruct (f i x) eqn:E.
    + split; [discriminate|]. intros H. specialize (H O x eq_refl).
      rewrite Nat.add_0_r in H. congruence.
    + rewrite IH. split; intros H j y N.
      * destruct j as [|j]; cbn in N.
        -- injection N as <-. rewrite Nat.add_0_r. exact E.
        -- rewrite Nat.add_succ_r. apply (H j y N).
      * specialize (H (S j) y N). rewrite Nat.add_succ_r in H. exact H.
Qed.

Lemma bad_false fl ar rh out i n :
  bad fl ar rh out i n = false <->
  (should_skip fl ar rh n = false -> check fl n (fst (out i)) (snd (out i)) = 0).
Proof.
  unfold bad. destruct (should_skip fl ar rh n); cbn; [intuition congruence|].
  destruct (Z.eqb_spec (check fl n (fst (out i)) (snd (out i))) 0); cbn;
    intuition congruence.
Qed.

(** ** Waiting *)

Lemma wait_from_spec ready l : forall i,
  (fst (wait_from ready i l) = 0 /\
   exists k, (i <= k < i + l)%nat /\ ready k = true /\
             (forall j, (i <= j < k)%nat -> ready j = false) /\
             snd (wait_from ready i l) = k) \/
  (wait_from ready i l = (1, (i + l)%nat) /\
   forall j, (i <= j < i + l)%nat -> ready j = false).
Proof.
  induction l as [|l IH]; intros i; cbn [wait_from].
  - right. rewrite Nat.add_0_r. split; [reflexivity|]. intros j J; lia.
  - destruct (ready i) eqn:R.
    + left. split; [reflexivity|]. exists i. split; [lia|]. split; [exact R|]. split; [|reflexivity].
      intros j J; lia.
    + destruct (IH (S i)) as [(A & k & K & RK & F & E)|(A & F)].
      * left. split; [exact A|]. exists k. split; [lia|]. split; [exact RK|]. split; [|exact E].
        intros j J. destruct (Nat.eq_dec j i) as [->|]; [exact R|]. apply F; lia.
      * right. rewrite A. split; [f_equal; lia|].
        intros j J. destruct (Nat.eq_dec j i) as [->|]; [exact R|]. apply F; lia.
Qed.

(** ** The names that failed, as one text *)

Lemma sapp_assoc a b c : ((a ++ b) ++ c)%string = (a ++ (b ++ c))%string.
Proof. induction a as [|x a IH]; cbn; [reflexivity|]. f_equal. exact IH. Qed.

Lemma join_concat l : forall acc, acc <> "" -> join acc l = String.concat " " (acc :: l).
Proof.
  induction l as [|x r IH]; intros acc N; [reflexivity|].
  unfold join. cbn [fold_left]. fold (join (if acc =s "" then x else (acc ++ " " ++ x)%string) r).
  destruct (acc =s "") eqn:E; [apply String.eqb_eq in E; contradiction|].
  rewrite IH by (intros H; apply app_nil_l in H; contradiction).
  change (String.concat " " (acc :: x :: r))
    with (acc ++ " " ++ String.concat " " (x :: r))%string.
  destruct r as [|y r]; [reflexivity|].
  change (String.concat " " (x :: y :: r))
    with (x ++ " " ++ String.concat " " (y :: r))%string.
  change (String.concat " " ((acc ++ " " ++ x)%string :: y :: r))
    with ((acc ++ " " ++ x) ++ " " ++ String.concat " " (y :: r))%string.
  rewrite !sapp_assoc. reflexivity.
Qed.

Lemma join_start l : Forall (fun x => x <> "") l -> join "" l = String.concat " " l.
Proof.
  destruct l as [|x r]; [reflexivity|]. intros F. inversion F; subst.
  unfold join. cbn [fold_left]. change ("" =s "") with true. cbn iota.
  fold (join x r). apply join_concat. assumption.
Qed.

Lemma main_summary m opts out tests code c :
  main m opts out tests = Summary code c ->
  exists fl, get_flavor opts "test_patch_files" = Some fl /\
    c = test_loop fl (arch m) (rhel6 m) out 0 tests (mkCounts 0 0 0 0 "") /\
    code = (if negb (FAILED c =s "") then 1 else 0).
Proof.
  unfold main. destruct (get_flavor opts "test_patch_files") as [fl|]; [|discriminate].
  intros H. exists fl. split; [reflexivity|]. revert H. cbn zeta.
  repeat match goal with
  | |- (if ?x then Early _ else _) = _ -> _ => destruct x; [discriminate|]
  end.
  intros H. inversion H. split; reflexivity.
Qed.
