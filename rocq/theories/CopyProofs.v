(** Proofs about the copy of a file. *)
From Coq Require Import ZArith List Bool Lia ZifyBool ZifyNat.
From Verif Require Import Base CopyModel.
Import ListNotations.
Open Scope nat_scope.

Definition whole (a : io) : Prop := match a with Did n => buf_size <= n | _ => True end.
Lemma whole_first o : Forall whole o -> whole (first_io o).
Proof. intros [|a l H F]; [unfold first_io, whole; lia|exact H]. Qed.
Lemma whole_tl o : Forall whole o -> Forall whole (tl o).
Proof. intros [|a l H F]; [constructor|exact F]. Qed.

Lemma how_many_le n a : how_many n a <= a. Proof. unfold how_many. lia. Qed.
Lemma how_many_pos n a : 0 < a -> 0 < how_many n a. Proof. unfold how_many. lia. Qed.

(** Reading state: [done] bytes are out; [inp] is left. *)
Lemma copy_right fuel : forall ro wo buf inp wr done,
  Forall whole wo -> length buf = buf_size ->
  match wr with None => True | Some (r, w) => r <= buf_size /\ (w = 0 /\ 0 < r \/ w = r) end ->
  let mid := match wr with Some (r, 0) => firstn r buf | _ => [] end in
  match copy_loop fuel ro wo buf inp wr done (length done) with
  | Done out => out = done ++ mid ++ inp
  | Fatal out => exists rest, done ++ mid ++ inp = out ++ rest
  | Outside => False
  | Steps => True
  end.
Proof.
  induction fuel as [|f IH]; intros ro wo buf inp wr done Fw Lb Hwr mid; [exact I|]. cbn [copy_loop].
  destruct wr as [[r w]|].
  - destruct Hwr as [Hr [[-> H0]|Hw]].
    + replace (Nat.ltb 0 r) with true by lia. replace (Nat.ltb (length buf) (0 + r)) with false by lia.
      assert (Em : mid = firstn r buf) by reflexivity. destruct (first_io wo) eqn:E.
      * pose proof (whole_first _ Fw) as W. rewrite E in W. cbn [whole] in W.
        assert (Ec : how_many n r = r) by (unfold how_many; lia). rewrite Ec. cbn [skipn].
        rewrite (Nat.add_0_l r). unfold overwrite. rewrite firstn_all, skipn_all2 by lia. rewrite app_nil_r.
        specialize (IH ro (tl wo) buf inp (Some (r, r)) (done ++ firstn r buf) (whole_tl _ Fw) Lb (conj Hr (or_intror eq_refl))).
        rewrite app_length, firstn_length, Nat.min_l in IH by lia.
        destruct r as [|r]; [lia|]. cbn [app] in IH. rewrite Em.
        destruct (copy_loop f _ _ _ _ _ _ _); auto; rewrite <- ?app_assoc in IH; auto.
      * rewrite Em. exact (IH ro (tl wo) buf inp (Some (r, 0)) done (whole_tl _ Fw) Lb (conj Hr (or_introl (conj eq_refl H0)))).
      * exists (mid ++ inp). reflexivity.
    + subst w. replace (Nat.ltb r r) with false by lia.
      assert (Em : mid = []) by (unfold mid; destruct r; reflexivity). rewrite Em.
      exact (IH ro wo buf inp None done Fw Lb I).
  - unfold mid. cbn [app]. destruct (first_io ro) eqn:E.
    + set (r := how_many n (Nat.min buf_size (length inp))).
      assert (B : r <= Nat.min buf_size (length inp)) by apply how_many_le.
      destruct (Nat.eqb r 0) eqn:E0.
      * assert (length inp = 0). { destruct inp; [reflexivity|]. pose proof (how_many_pos n (Nat.min buf_size (length (z :: inp))) ltac:(cbn [length]; unfold buf_size; lia)). lia. }
        destruct inp; [|discriminate]. rewrite app_nil_r. reflexivity.
      * assert (Lb' : length (firstn r inp ++ skipn r buf) = buf_size) by (rewrite app_length, firstn_length, skipn_length; lia).
        specialize (IH (tl ro) wo (firstn r inp ++ skipn r buf) (skipn r inp) (Some (r, 0)) done Fw Lb' ltac:(split; [lia|left; lia])).
        cbn [copy_loop] in IH. rewrite firstn_app, firstn_firstn, firstn_length in IH.
        rewrite Nat.min_id in IH. replace (r - Nat.min r (length inp)) with 0 in IH by lia. rewrite firstn_O, app_nil_r, firstn_skipn in IH. exact IH.
    + exact (IH (tl ro) wo buf inp None done Fw Lb I).
    + exists inp. reflexivity.
Qed.

Definition measure (ro wo : list io) (inp : list Z) (wr : option (nat * nat)) : nat :=
  length ro + length wo + 3 * length inp + match wr with None => 0 | Some (r, w) => (r - w) + 1 end + 1.
Lemma tl_shorter o a : first_io o = a -> a = Intr -> S (length (tl o)) = length o.
Proof. destruct o; cbn; [intros <-; discriminate|reflexivity]. Qed.
Lemma tl_le {A} (o : list A) : length (tl o) <= length o. Proof. destruct o; cbn; lia. Qed.
Lemma copy_ends fuel : forall ro wo buf inp wr out pos, measure ro wo inp wr <= fuel -> copy_loop fuel ro wo buf inp wr out pos <> Steps.
Proof.
  induction fuel as [|f IH]; intros ro wo buf inp wr out pos H; [unfold measure in H; lia|]. cbn [copy_loop].
  pose proof (tl_le ro). pose proof (tl_le wo). destruct wr as [[r w]|].
  - destruct (Nat.ltb w r) eqn:E; [|apply IH; unfold measure in *; lia].
    destruct (Nat.ltb (length buf) (w + r)); [discriminate|]. destruct (first_io wo) eqn:Ef; [| |discriminate].
    + apply IH. pose proof (how_many_pos n r ltac:(lia)). unfold measure in *. lia.
    + apply IH. pose proof (tl_shorter _ _ Ef eq_refl). unfold measure in *. lia.
  - destruct (first_io ro) eqn:Ef; [| |discriminate].
    + set (r := how_many n (Nat.min buf_size (length inp))).
      assert (B : r <= Nat.min buf_size (length inp)) by apply how_many_le.
      destruct (Nat.eqb r 0) eqn:E0; [discriminate|]. apply IH. unfold measure in *. rewrite skipn_length. lia.
    + apply IH. pose proof (tl_shorter _ _ Ef eq_refl). unfold measure in *. lia.
Qed.
