(** Reading a variable without contents, .comm name,size,alignment. *)
From Coq Require Import String.
From Verif Require Import Base BaseProofs StorageModel StorageProofs CliModel CliSpec CliProofs TextModel TextSpec TextProofs ParseModel GenModel.
Open Scope list_scope.

(** A word: no delimiter in it, and not quoted *)
Definition word (t : list Z) : Prop := t <> [] /\ Forall (fun c => ~ In c asm_delims) t /\ hd_error t <> Some 34.
Lemma word_not_ends t : word t -> ~ ends t.
Proof. intros (N & F & _) [->|(r & ->)]; [congruence|]. inversion F. subst. apply H1. cbn. tauto. Qed.
Lemma token_word g (t r : text) : blank g -> word t -> (forall c r', r = c :: r' -> In c asm_delims) ->
  get_token (@Some text (g ++ t ++ r)) = (KStr t r, if at_end (skip_blanks r) then None else Some (skip_blanks r)).
Proof.
  intros B W D. apply get_token_shape; auto; [cbn; tauto|cbn; tauto|now apply word_not_ends|].
  destruct W as (A & F & Q). now apply ts_word.
Qed.
Lemma token_comma (r : text) : get_token (@Some text (44 :: r)) = (KStr [44] r, if at_end (skip_blanks r) then None else Some (skip_blanks r)).
Proof. reflexivity. Qed.
Lemma numeral_word s n : numeral s n -> word s.
Proof.
  intros (Ne & D & _). split; auto. split.
  - eapply Forall_impl; [|exact D]. intros c H I. cbn in I. intuition lia.
  - destruct s as [|c s]; [congruence|]. inversion D; subst. intros [= ->]. lia.
Qed.
Lemma numeral_skip s n (r : text) : numeral s n -> skip_blanks (s ++ r) = s ++ r /\ at_end (s ++ r) = false.
Proof.
  intros (Ne & D & _). destruct s as [|c s]; [congruence|]. inversion D as [|? ? H D']; subst. cbn [app skip_blanks at_end]. unfold isblank.
  replace (c =? 32) with false by lia. replace (c =? 9) with false by lia. replace (c =? 10) with false by lia. now split.
Qed.
Lemma after_digits_app s r : digs s -> match r with [] => True | c :: _ => is_digit c = false end -> after_digits (s ++ r) = r.
Proof.
  intros D N. induction D as [|c s H D IH]; cbn [after_digits app].
  - destruct r as [|c r]; cbn [after_digits]; [reflexivity|]. now rewrite N.
  - now rewrite (proj2 (is_digit_iff c) H).
Qed.
Lemma comm_numeral s n (r : text) : numeral s n -> n < 2 ^ 31 -> match r with [] => True | c :: _ => is_digit c = false end ->
  comm_number (KStr s r) = Ok n.
Proof.
  intros (Ne & D & V & _) L N. unfold comm_number. cbn [txt rest]. destruct s as [|c s]; [congruence|]. cbn [app].
  pose proof D as D0. inversion D as [|? ? H D']; subst. unfold strtoul. rewrite skip_space_digit by exact H.
  replace (c =? 45) with false by lia. replace (c =? 43) with false by lia. rewrite (proj2 (is_digit_iff c) H).
  change (c :: s ++ r) with ((c :: s) ++ r). rewrite (digits_app _ _ 0 D0 N), (after_digits_app _ _ D0 N). fold (value (c :: s)).
  pose proof (value_nonneg _ D0). rewrite Z.min_l by (change (2 ^ 64) with (2 ^ 31 * 2 ^ 33); lia).
  rewrite (proj2 (Nat.eqb_neq _ _)); [f_equal; apply s32_id; lia|]. rewrite app_length. cbn [length]. lia.
Qed.
Theorem comm_args g1 g2 n z zv tl av :
  blank g1 -> blank g2 -> g2 <> [] -> word n -> numeral z zv -> zv < 2 ^ 31 ->
  ((tl = [] /\ av = 0) \/ exists a, numeral a av /\ av < 2 ^ 31 /\ tl = 44 :: a) ->
  get_comm_args (g1 ++ str ".comm" ++ g2 ++ n ++ 44 :: z ++ tl) = Ok (n, zv, av).
Proof.
  intros B1 B2 N2 Wn Nz Lz T. unfold get_comm_args.
  rewrite token_word; auto.
  2:{ split; [discriminate|]. split; [|discriminate]. repeat constructor; cbn; lia. }
  2:{ intros c r E. destruct g2 as [|x g2]; [congruence|]. injection E as <- _. inversion B2 as [|? ? H]; subst. cbn. lia. }
  rewrite (skip_blanks_blank g2) by auto.
  assert (En : skip_blanks (n ++ 44 :: z ++ tl) = n ++ 44 :: z ++ tl /\ at_end (n ++ 44 :: z ++ tl) = false).
  { destruct Wn as (A & F & _). destruct n as [|c n]; [congruence|]. inversion F as [|? ? H]; subst. cbn [app skip_blanks at_end]. unfold isblank.
    cbn in H. replace (c =? 32) with false by lia. replace (c =? 9) with false by lia. replace (c =? 10) with false by lia. now split. }
  destruct En as (E1 & E2). rewrite E1, E2. cbn [txt]. change (negb (same (str ".comm") (str ".comm"))) with false. cbn iota.
  change (n ++ 44 :: z ++ tl) with ([] ++ n ++ 44 :: z ++ tl). rewrite token_word; auto; [|constructor|intros c r [= <- _]; cbn; tauto].
  cbn [skip_blanks isblank at_end]. change (isblank 44) with false. change (44 =? 10) with false. cbn iota. change (at_end (44 :: z ++ tl)) with false. cbn iota. rewrite token_comma. cbn [txt]. change (negb (same [44] (str ","))) with false. cbn iota.
  destruct (numeral_skip z zv tl Nz) as (E3 & E4). rewrite E3, E4.
  change (z ++ tl) with ([] ++ z ++ tl).
  rewrite token_word; [|constructor|eapply numeral_word; eauto|].
  2:{ intros c r E. destruct T as [(-> & _)|(a & _ & _ & ->)]; [discriminate|]. injection E as <- _. cbn. tauto. }
  destruct T as [(-> & ->)|(a & Na & La & ->)].
  - rewrite (comm_numeral z zv []) by auto. reflexivity.
  - cbn [skip_blanks at_end]. change (isblank 44) with false. change (44 =? 10) with false. cbn iota. change (at_end (44 :: a)) with false. cbn iota. rewrite (comm_numeral z zv (44 :: a)) by auto. cbn [rbind].
    rewrite token_comma. cbn [txt]. change (negb (same [44] (str ","))) with false. cbn iota.
    destruct (numeral_skip a av [] Na) as (E5 & E6). rewrite app_nil_r in E5, E6. rewrite E5, E6.
    pose proof (token_word [] a []) as X. cbn [app] in X. rewrite app_nil_r in X. rewrite X; [|constructor|eapply numeral_word; eauto|discriminate].
    rewrite (comm_numeral a av []) by auto. reflexivity.
Qed.
