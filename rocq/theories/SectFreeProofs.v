(** Proofs about the lifetime of the descriptions of sections. *)
From Coq Require Import Lia.
From Verif Require Import Base SectFreeModel.
Open Scope list_scope.

(** While files are read nothing is freed and all pointers are good. *)
Definition ok_ptr (m : mem) (p : ptr) : Prop :=
  match p with Static _ => True | Heap id => (id < length (prevs m))%nat end.
Definition inv (m : mem) : Prop :=
  freed m = [] /\ Forall (ok_ptr m) (prevs m) /\ Forall (fun x => ok_ptr m (snd x)) (byname m).

Lemma ok_live m p : inv m -> ok_ptr m p -> live m p = true.
Proof.
  intros (F & _ & _) O. destruct p as [n|id]; [reflexivity|]. cbn [ok_ptr live] in *. rewrite F.
  apply Nat.ltb_lt in O. rewrite O. reflexivity.
Qed.

Lemma find_good m name t : inv m -> Forall (fun x => ok_ptr m (snd x)) t ->
  exists f, find_byname m t name = Fine f /\ forall p, f = Some p -> ok_ptr m p.
Proof.
  intros I. induction t as [|[n p] r IH]; intros F; cbn.
  - exists None. split; [reflexivity|]. discriminate.
  - inversion F; subst. cbn in *. rewrite ok_live by assumption. cbn.
    destruct (list_eqb n name).
    + exists (Some p). split; [reflexivity|]. intros q [= <-]. assumption.
    + apply IH. assumption.
Qed.

Lemma ok_more m m' p : (length (prevs m) <= length (prevs m'))%nat -> ok_ptr m p -> ok_ptr m' p.
Proof. destruct p; cbn; [auto|]. lia. Qed.

Lemma inv_new m cur t : inv m -> ok_ptr m cur ->
  Forall (fun x => ok_ptr (mkMem (prevs m ++ [cur]) (freed m) t) (snd x)) t ->
  inv (mkMem (prevs m ++ [cur]) (freed m) t).
Proof.
  intros (F & P & B) C T. split; [exact F|]. cbn [prevs byname]. split; [|exact T].
  apply Forall_app. split.
  - eapply Forall_impl; [|exact P]. intros p. apply ok_more. cbn. rewrite app_length. lia.
  - constructor; [|constructor]. revert C. apply ok_more. cbn. rewrite app_length. lia.
Qed.

(** A line makes nothing or the next description. *)
Lemma line_spec m cur k : inv m -> ok_ptr m cur ->
  sect_line m cur k = Fatal \/
  (k = KNone /\ sect_line m cur k = Fine (m, cur)) \/
  exists m', sect_line m cur k = Fine (m', Heap (length (prevs m))) /\
    inv m' /\ prevs m' = prevs m ++ [cur].
Proof.
  intros I C.
  assert (T : Forall (fun x => ok_ptr (mkMem (prevs m ++ [cur]) (freed m) (byname m)) (snd x)) (byname m)).
  { destruct I as (_ & _ & B). eapply Forall_impl; [|exact B]. intros p. apply ok_more.
    cbn. rewrite app_length. lia. }
  assert (D : forall q, (forall p, q = Some p -> ok_ptr m p) ->
     dup m q cur = Fatal \/
     exists m', dup m q cur = Fine (m', Heap (length (prevs m))) /\ inv m' /\ prevs m' = prevs m ++ [cur]).
  { intros [p|] Q; [right|left; reflexivity]. cbn. rewrite ok_live by auto.
    eexists. split; [reflexivity|]. split; [|reflexivity]. apply inv_new; assumption. }
  destruct k as [|must name| |]; cbn [sect_line].
  - right. left. split; reflexivity.
  - destruct (find_good m name (byname m) I) as (f & E & O); [apply I|].
    rewrite E. cbn [bind]. destruct f as [p|].
    + destruct (D (Some p) O) as [X|X]; [left; exact X|right; right; exact X].
    + destruct must; [left; reflexivity|]. right. right. cbn.
      eexists. split; [reflexivity|]. split; [|reflexivity].
      apply inv_new; try assumption. apply Forall_app. split.
      * eapply Forall_impl; [|exact T]. intros p. apply ok_more. cbn. lia.
      * constructor; [|constructor]. cbn. rewrite app_length. cbn. lia.
  - unfold prev_of. rewrite ok_live by assumption. cbn.
    destruct cur as [n|id]; [left; reflexivity|]. cbn [bind].
    destruct (D (nth_error (prevs m) id)) as [X|X]; [|left; exact X|right; right; exact X].
    intros p N. destruct I as (_ & P & _). apply nth_error_In in N.
    rewrite Forall_forall in P. apply P. exact N.
  - destruct (D (Some cur)) as [X|X]; [intros p [= <-]; exact C|left; exact X|right; right; exact X].
Qed.

(** The pointers at which one differs from the one before. *)
Fixpoint changes (before : ptr) (ps : list ptr) : list ptr :=
  match ps with
  | [] => []
  | p :: r => if ptr_eqb p before then changes p r else p :: changes p r
  end.

Lemma ptr_eqb_refl p : ptr_eqb p p = true.
Proof. destruct p; apply Nat.eqb_refl. Qed.

Lemma lines_spec ks : forall m cur, inv m -> ok_ptr m cur ->
  sect_lines m cur ks = Fatal \/
  exists m' ps n, sect_lines m cur ks = Fine (m', ps) /\ inv m' /\
    length (prevs m') = (length (prevs m) + n)%nat /\
    changes cur ps = map Heap (seq (length (prevs m)) n) /\
    n = length (filter (fun k => match k with KNone => false | _ => true end) ks).
Proof.
  induction ks as [|k ks IH]; intros m cur I C; cbn [sect_lines].
  - right. exists m, [], O. cbn. repeat split; try apply I; lia.
  - destruct (line_spec m cur k I C) as [E|[[K E]|(m1 & E & I1 & P1)]]; rewrite E; cbn [bind].
    + left. reflexivity.
    + destruct (IH m cur I C) as [X|(m2 & ps & n & X & I2 & L & Ch & N)]; rewrite X; cbn [bind].
      * left. reflexivity.
      * right. exists m2, (cur :: ps), n. subst k. cbn. rewrite ptr_eqb_refl. auto.
    + assert (L1 : length (prevs m1) = S (length (prevs m)))
        by (rewrite P1, app_length; cbn; lia).
      destruct (IH m1 (Heap (length (prevs m))) I1) as [X|(m2 & ps & n & X & I2 & L & Ch & N)];
        [cbn; lia| |]; rewrite X; cbn [bind].
      * left. reflexivity.
      * destruct (match k with KNone => true | _ => false end) eqn:KN.
        { destruct k; try discriminate. cbn in E. injection E as <- _.
          apply (f_equal (@length _)) in P1. rewrite app_length in P1. cbn in P1. lia. }
        right. exists m2, (Heap (length (prevs m)) :: ps), (S n).
        split; [reflexivity|]. split; [exact I2|]. split; [lia|]. split.
        -- cbn [changes seq map].
           assert (Q : ptr_eqb (Heap (length (prevs m))) cur = false).
           { destruct cur as [j|j]; [reflexivity|]. cbn in C |- *. apply Nat.eqb_neq. lia. }
           rewrite Q, Ch, L1. reflexivity.
        -- rewrite N. destruct k; [discriminate| | |]; reflexivity.
Qed.

Lemma free_spec ps : forall m before n k,
  changes before ps = map Heap (seq n k) ->
  (n + k <= length (prevs m))%nat ->
  (forall i, In i (freed m) -> (i < n)%nat \/ (n + k <= i)%nat) ->
  exists m', free_from m before ps = Fine m' /\ prevs m' = prevs m /\
    byname m' = byname m /\ freed m' = rev (seq n k) ++ freed m.
Proof.
  induction ps as [|p r IH]; intros m before n k Ch L F; cbn [free_from changes] in *.
  - destruct k; [|discriminate]. exists m. repeat split.
  - destruct (ptr_eqb p before).
    + apply IH; assumption.
    + destruct k as [|k]; [discriminate|]. cbn [seq map] in Ch. injection Ch as -> Ch.
      cbn [free_desc live].
      assert (A : Nat.ltb n (length (prevs m)) = true) by (apply Nat.ltb_lt; lia).
      assert (B : existsb (Nat.eqb n) (freed m) = false).
      { destruct (existsb (Nat.eqb n) (freed m)) eqn:X; [|reflexivity].
        apply existsb_exists in X. destruct X as (i & Hi & E). apply Nat.eqb_eq in E. subst i.
        destruct (F n Hi); lia. }
      rewrite A, B. cbn [negb andb bind].
      destruct (IH (mkMem (prevs m) (n :: freed m) (byname m)) (Heap n) (S n) k Ch) as (m' & E & P & T & Q).
      * cbn. lia.
      * cbn. intros i [<-|Hi]; [left; lia|]. destruct (F i Hi); lia.
      * exists m'. split; [exact E|]. split; [exact P|]. split; [exact T|].
        rewrite Q. cbn [freed seq rev]. rewrite <- app_assoc. reflexivity.
Qed.

Lemma statics_ok m names : forall n, Forall (fun x => ok_ptr m (snd x)) (statics n names).
Proof. induction names; intros n; cbn; constructor; cbn; auto. Qed.

Lemma gensrc_spec names text ks0 ks1 :
  gensrc_sections names text ks0 ks1 = Fatal \/
  exists m n0 n1, gensrc_sections names text ks0 ks1 = Fine m /\
    length (prevs m) = (n0 + n1)%nat /\
    freed m = rev (seq n0 n1) ++ rev (seq 0 n0) /\
    n0 = length (filter (fun k => match k with KNone => false | _ => true end) ks0) /\
    n1 = length (filter (fun k => match k with KNone => false | _ => true end) ks1).
Proof.
  unfold gensrc_sections, init_sects.
  set (m0 := mkMem [] [] (statics 0 names)).
  assert (I0 : inv m0).
  { split; [reflexivity|]. split; [constructor|]. apply statics_ok. }
  destruct (lines_spec ks0 m0 (Static text) I0 I) as [X|(m1 & s0 & n0 & X & I1 & L1 & C1 & N0)];
    rewrite X; cbn [bind]; [left; reflexivity|].
  destruct (lines_spec ks1 m1 (Static text) I1 I) as [Y|(m2 & s1 & n1 & Y & I2 & L2 & C2 & N1)];
    rewrite Y; cbn [bind]; [left; reflexivity|].
  right. cbn [free_sects]. change (length (prevs m0)) with 0%nat in *. cbn [Nat.add] in L1.
  rewrite L1 in *.
  destruct (free_spec s0 m2 (Static text) 0 n0 C1) as (m3 & E3 & P3 & T3 & F3).
  - lia.
  - destruct I2 as (-> & _). intros i [].
  - rewrite E3. cbn [bind]. destruct I2 as (F2 & _). rewrite F2, app_nil_r in F3.
    destruct (free_spec s1 m3 (Static text) n0 n1 C2) as (m4 & E4 & P4 & T4 & F4).
    + rewrite P3. lia.
    + rewrite F3. intros i Hi. apply in_rev, in_seq in Hi. lia.
    + exists m4, n0, n1. rewrite E4, P4, P3, F4, F3. repeat split; auto.
Qed.
