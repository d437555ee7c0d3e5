From Coq Require Import Lia.
From Verif Require Import Base TextModel ListModel ListSpec ListProofs ListLoopModel.
Open Scope list_scope.

Lemma linked_prv_last h a l b : linked h a l b -> prv h b = Some (last l a).
Proof.
  destruct l as [|y l' _] using rev_ind; intros L; [exact (proj2 L)|]. apply linked_app in L as (_ & L). rewrite last_last. exact (proj2 L).
Qed.
Lemma each_safe_back_spec I hd keep body l0 : safe_body I hd keep body l0 ->
  forall l k n h, I h -> ring h hd (l ++ k) -> (forall z, In z (l ++ k) -> In z l0) -> (length l < n)%nat ->
  exists h', each_safe_back n hd (last l hd) (match l with [] => last k hd | _ => last (removelast l) hd end) body h = Ok (rev l, h') /\
    I h' /\ ring h' hd (filter keep l ++ k).
Proof.
  intro B. induction l as [|x r IH] using rev_ind; intros k n h Ih R Sub F; (destruct n as [|n]; [lia|]); cbn [each_safe_back].
  - cbn [last]. rewrite Z.eqb_refl. exists h. now split.
  - rewrite app_length in F. cbn [length] in F. rewrite last_last. replace (match r ++ [x] with [] => last k hd | _ :: _ => last (removelast (r ++ [x])) hd end) with (last r hd).
    2: { rewrite removelast_last. destruct r; reflexivity. }
    rewrite <- app_assoc in R, Sub. cbn [app] in R, Sub. destruct (Z.eqb_spec x hd) as [->|_].
    { exfalso. destruct R as (ND & _). inversion ND as [|? ? N _]; subst. apply N. apply in_or_app. right. now left. }
    destruct (B r x k h Ih R Sub) as (h1 & E1 & I1 & R1). rewrite E1. cbn [rbind].
    set (k1 := (if keep x then [x] else []) ++ k) in *.
    assert (EN : prv h1 (last r hd) = Some (match r with [] => last k1 hd | _ => last (removelast r) hd end)).
    { destruct R1 as (_ & L1). destruct r as [|y r' _] using rev_ind.
      - cbn [last]. exact (linked_prv_last h1 hd k1 hd L1).
      - rewrite last_last, removelast_last. rewrite <- app_assoc in L1. apply linked_app in L1 as (L1 & _). rewrite (linked_prv_last h1 hd r' y L1).
        destruct r'; reflexivity. }
    rewrite (prev_ok _ _ _ EN). cbn [rbind].
    destruct (IH k1 n h1 I1 R1) as (h2 & E2 & I2 & R2).
    + intros z J. apply Sub. apply in_app_or in J as [J|J]; [apply in_or_app; now left|]. apply in_or_app. right. unfold k1 in J. destruct (keep x); cbn in J; [exact J|now right].
    + lia.
    + rewrite E2. cbn [rbind fst snd]. exists h2. rewrite rev_app_distr. split; [reflexivity|]. split; [exact I2|].
      rewrite filter_app. cbn [filter]. unfold k1 in R2. rewrite <- app_assoc. destruct (keep x); exact R2.
Qed.
Lemma first_next h hd k l : ring h hd (k ++ l) -> nxt h (List.hd hd l) = Some (match l with [] => List.hd hd (k ++ l) | _ :: r => List.hd hd r end).
Proof.
  intros (_ & L). destruct l as [|y r]; cbn [List.hd]; [exact (linked_nxt h hd (k ++ []) hd L)|]. apply linked_app in L as (_ & L). exact (linked_nxt h y r hd L).
Qed.
Lemma del_free_body hd keep l : safe_body (fun _ => True) hd keep (fun x g => if keep x then Ok g else del_free x g) l.
Proof.
  intros k x r g _ Rg _. destruct (keep x) eqn:K.
  - exists g. split; [reflexivity|]. split; [exact I|exact Rg].
  - destruct (list_del_ring g hd k x r Rg) as (g1 & E1 & R1 & X1 & _). unfold del_free. rewrite E1. cbn [rbind].
    assert (Ax : g1 x <> None) by (rewrite X1; apply (ring_alive g hd (k ++ x :: r)); [exact Rg|]; right; apply in_or_app; right; now left).
    destruct (mfree_spec x g1 Ax) as (g2 & E2 & _ & O2). exists g2. split; [exact E2|]. split; [exact I|]. cbn [app].
    apply (ring_frame g1); [|exact R1]. intros z J. apply O2. intros ->. destruct Rg as (ND & _).
    change (hd :: k ++ x :: r) with ((hd :: k) ++ x :: r) in ND. apply NoDup_remove_2 in ND. apply ND. exact J.
Qed.
