(** Lemmas for DumpModel. *)
From Coq Require Import String Permutation.
From Verif Require Import Base BaseProofs StorageModel StorageProofs MakeModel MakeProofs DumpModel.
Open Scope list_scope.

Definition elfmag : list Z := [127; 69; 76; 70].

Lemma until_nul_app s r : Forall (fun c => c <> 0) s -> until_nul (s ++ 0 :: r) = Some s.
Proof.
  intros F. induction F as [|c s N F IH]; [reflexivity|].
  cbn [app until_nul]. rewrite IH. replace (c =? 0) with false by lia. reflexivity.
Qed.
Lemma until_nul_none s : Forall (fun c => c <> 0) s -> until_nul s = None.
Proof.
  intros F. induction F as [|c s N F IH]; [reflexivity|].
  cbn [until_nul]. rewrite IH. replace (c =? 0) with false by lia. reflexivity.
Qed.
Lemma until_nul_some s x : until_nul s = Some x ->
  Forall (fun c => c <> 0) x /\ exists r, s = x ++ 0 :: r.
Proof.
  revert x. induction s as [|c s IH]; intros x E; [discriminate|]. cbn [until_nul] in E.
  destruct (Z.eqb_spec c 0) as [->|N].
  - injection E as <-. split; [constructor|]. exists s. reflexivity.
  - destruct (until_nul s) as [y|] eqn:Ey; [|discriminate]. injection E as <-.
    destruct (IH y eq_refl) as [F [r ->]]. split; [constructor; assumption|]. exists r. reflexivity.
Qed.

(** The 504 bytes of a header made by kpatch_make. *)
Lemma field_made a s r d off n : d = a ++ (s ++ 0 :: r) -> zlen a = off -> Forall (fun c => c <> 0) s ->
  off + zlen s < n -> n <= zlen d -> field (firstn (Z.to_nat n) d) off = Some s.
Proof.
  intros -> La F Ln Ld. unfold field. pose proof (zlen_nonneg a). pose proof (zlen_nonneg s).
  rewrite firstn_app. rewrite firstn_all2 by (unfold zlen in *; lia).
  rewrite skipn_app. rewrite skipn_all2 by (unfold zlen in *; lia).
  replace (Z.to_nat off - length a)%nat with 0%nat by (unfold zlen in *; lia). cbn [skipn app].
  rewrite firstn_app. rewrite (firstn_all2 s) by (unfold zlen in *; lia).
  destruct (Z.to_nat n - length a - length s)%nat as [|k] eqn:Ek; [unfold zlen in *; lia|].
  cbn [firstn]. apply until_nul_app. exact F.
Qed.

Lemma convert_inv w fs inp out fs' m : convert w fs inp out = (0, fs', m) ->
  exists d, d_open w inp = true /\ fs (d_ino w inp) = Some d /\ d_stat w = true /\ d_map w = true /\
    d_create w out = true /\ d_ino w inp <> d_ino w out /\ 0 < elf_size (zlen d) /\
    d_write w (elf_size (zlen d)) = elf_size (zlen d) /\
    firstn 4 (skipn 504 d ++ repeat 0 4) = elfmag /\ m = [] /\
    fs' = put fs (d_ino w out) (firstn (Z.to_nat (elf_size (zlen d))) (skipn 504 d)).
Proof.
  unfold convert. destruct (d_open w inp); [|intros E; discriminate E].
  destruct (fs (d_ino w inp)) as [d|]; [|intros E; discriminate E].
  destruct (d_stat w); cbn [negb]; [|intros E; discriminate E].
  destruct (Z.leb_spec (elf_size (zlen d)) 0) as [L|L]; [intros E; discriminate E|].
  destruct (d_map w); cbn [negb]; [|intros E; discriminate E].
  change (Z.to_nat kp_size) with 504%nat.
  destruct (list_eqb _ _) eqn:M; cbn [negb]; [|intros E; discriminate E].
  apply list_eqb_eq in M.
  destruct (d_create w out); cbn [negb]; [|intros E; discriminate E].
  destruct (Z.eqb_spec (d_ino w inp) (d_ino w out)) as [S|S].
  - replace (-1 =? elf_size (zlen d)) with false by lia. intros E. discriminate E.
  - destruct (Z.eqb_spec (d_write w (elf_size (zlen d))) (elf_size (zlen d))) as [W|W];
      [|intros E; discriminate E].
    rewrite W. intros E. exists d. assert (fs' = put fs (d_ino w out) (firstn (Z.to_nat (elf_size (zlen d))) (skipn 504 d)) /\ m = [])
      by (split; congruence). tauto.
Qed.

Lemma convert_run w fs inp out d :
  d_open w inp = true -> d_stat w = true -> d_map w = true -> d_create w out = true ->
  fs (d_ino w inp) = Some d -> d_ino w inp <> d_ino w out -> 0 < elf_size (zlen d) ->
  d_write w (elf_size (zlen d)) = elf_size (zlen d) ->
  firstn 4 (skipn 504 d ++ repeat 0 4) = elfmag ->
  convert w fs inp out = (0, put fs (d_ino w out) (firstn (Z.to_nat (elf_size (zlen d))) (skipn 504 d)), []).
Proof.
  intros H1 H2 H3 H4 H5 H6 H7 H8 H9. unfold convert. rewrite H1, H2, H3, H4, H5. cbn [negb].
  replace (elf_size (zlen d) <=? 0) with false by lia.
  change (Z.to_nat kp_size) with 504%nat. rewrite H9. change (list_eqb elfmag [127; 69; 76; 70]) with true.
  cbn [negb]. replace (d_ino w inp =? d_ino w out) with false by lia. rewrite H8, Z.eqb_refl. reflexivity.
Qed.

Lemma convert_others w fs inp out r fs' m : convert w fs inp out = (r, fs', m) ->
  forall j, j <> d_ino w out -> fs' j = fs j.
Proof.
  intros E j N. unfold convert in E.
  repeat match type of E with
         | context [match ?x with _ => _ end] => destruct x
         end; try (injection E as <- <- <-; reflexivity);
  apply (f_equal (fun p => snd (fst p))) in E; cbn [fst snd] in E; subst fs';
  unfold put; replace (j =? d_ino w out) with false by lia; reflexivity.
Qed.

Lemma elf_size_small n : 504 < n < 2 ^ 31 + 504 -> elf_size n = n - 504.
Proof. intros L. unfold elf_size, kp_size. apply s32_small. lia. Qed.

Lemma elf_size_short n : 0 <= n <= 504 -> elf_size n <= 0.
Proof. intros L. unfold elf_size, kp_size. rewrite s32_small by lia. lia. Qed.
Lemma elf_size_2g n : 2 ^ 31 + 504 <= n < 2 ^ 32 + 504 -> elf_size n < 0.
Proof.
  intros L. unfold elf_size, kp_size, s32, sext. rewrite (Z.mod_small (n - 504)) by lia.
  cbv zeta. destruct (Z.ltb_spec (n - 504) (2 ^ (32 - 1))); lia.
Qed.
