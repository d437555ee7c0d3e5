(** Proofs about the judge of kpatch_gensrc's tests. *)
From Coq Require Import String Ascii Lia.
From Verif Require Import Base TestsModel TestsProofs GccTestModel.
Open Scope string_scope.
Open Scope list_scope.
Open Scope Z_scope.

Lemma zlen_zero {A} (l : list A) : zlen l <= 0 -> l = [].
Proof. unfold zlen. destruct l; [reflexivity|]. cbn [List.length]. lia. Qed.

Lemma kept_keys f es :
  filter f (printed es) = [] -> filter f (old_of es) = filter f (new_of es).
Proof.
  induction es as [|e r IH]; [reflexivity|].
  unfold printed, old_of, new_of in *. cbn [flat_map].
  rewrite !filter_app. intros H. apply app_eq_nil in H. destruct H as [H1 H2].
  rewrite (IH H2). f_equal. destruct e as [l|l|l]; cbn in *.
  - reflexivity.
  - destruct (f l); [discriminate|reflexivity].
  - destruct (f l); [discriminate|reflexivity].
Qed.

Lemma judge_ok differ name src o :
  old_of (differ src (no_hash o)) = src -> new_of (differ src (no_hash o)) = no_hash o ->
  judge differ (name, src) (Some o) = VOk ->
  filter (has_key (key_word name)) src = filter (has_key (key_word name)) (no_hash o).
Proof.
  intros A B. unfold judge. destruct (grep_c (key_word name) src <? 2); [discriminate|].
  destruct (Z.ltb_spec 0 (grep_c (key_word name) (printed (differ src (no_hash o))))) as [|L];
    [discriminate|]. intros _. unfold grep_c in L. apply zlen_zero in L.
  apply kept_keys in L. rewrite A, B in L. exact L.
Qed.

Lemma printed_keep a : printed (map Keep a) = [].
Proof. induction a; [reflexivity|assumption]. Qed.

Definition is_v (v w : verdict) : bool :=
  match v, w with VOk, VOk | VFail, VFail | VSkip, VSkip => true | _, _ => false end.

(** The cases with a verdict. *)
Fixpoint with_v differ (out : nat -> option (list string)) (v : verdict) (i : nat)
    (cs : list gcase) : list gcase :=
  match cs with
  | [] => []
  | c :: r => if is_v v (judge differ c (out i)) then c :: with_v differ out v (S i) r
              else with_v differ out v (S i) r
  end.

Lemma judge_all_spec differ out cs : forall i ok fail skip,
  judge_all differ out i cs (ok, fail, skip) =
  (ok + zlen (with_v differ out VOk i cs), fail + zlen (with_v differ out VFail i cs),
   skip + zlen (with_v differ out VSkip i cs)).
Proof.
  unfold zlen. induction cs as [|c r IH]; intros i ok fail skip; cbn [judge_all with_v].
  - cbn. repeat f_equal; lia.
  - destruct (judge differ c (out i)); rewrite IH; cbn [is_v List.length];
      match goal with |- (?a, ?b, ?c) = (?d, ?e, ?f) =>
        replace a with d by lia; replace b with e by lia; replace c with f by lia end;
      reflexivity.
Qed.

Lemma with_v_total differ out cs : forall i,
  zlen (with_v differ out VOk i cs) + zlen (with_v differ out VFail i cs)
  + zlen (with_v differ out VSkip i cs) = zlen cs.
Proof.
  unfold zlen. induction cs as [|c r IH]; intros i; cbn [with_v]; [reflexivity|].
  specialize (IH (S i)). destruct (judge differ c (out i)); cbn [is_v List.length]; lia.
Qed.

Lemma with_v_nil differ out v cs : forall i,
  with_v differ out v i cs = [] <->
  forall j c, nth_error cs j = Some c -> judge differ c (out (i + j)%nat) <> v.
Proof.
  assert (R : forall w, is_v v w = true <-> w = v) by (intros w; destruct v, w; cbn; split; congruence).
  induction cs as [|x r IH]; intros i; cbn [with_v].
  - split; [|reflexivity]. intros _ j y H. destruct j; discriminate.
  - destruct (is_v v (judge differ x (out i))) eqn:E.
    + split; [discriminate|]. intros H. specialize (H O x eq_refl).
      rewrite Nat.add_0_r in H. apply R in E. contradiction.
    + rewrite IH. split; intros H j y N.
      * destruct j as [|j]; cbn in N.
        -- injection N as <-. rewrite Nat.add_0_r. intros X. apply R in X. congruence.
        -- rewrite Nat.add_succ_r. apply (H j y N).
      * specialize (H (S j) y N). rewrite Nat.add_succ_r in H. exact H.
Qed.
