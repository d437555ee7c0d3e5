(** Proofs about going through the global offset table. *)
From Coq Require Import String.
From Verif Require Import Base BaseProofs StorageModel TextModel TextSpec TextProofs RenameModel GotSpec.
Open Scope list_scope.

(** ** The text *)
Lemma contains_app (a p b : text) : contains (a ++ p ++ b) p = true.
Proof.
  unfold contains. enough (H : exists n, strstr (a ++ p ++ b) p = Some n) by (destruct H as (n & ->); reflexivity).
  assert (R : forall q, prefix_of p (p ++ q) = true).
  { clear. induction p as [|c p IH]; intros q; cbn; auto. now rewrite Z.eqb_refl, IH. }
  induction a as [|c a (n & IH)]; cbn [app].
  - exists 0%nat. destruct (p ++ b) eqn:E; cbn [strstr]; rewrite <- E, R; reflexivity.
  - cbn [strstr]. destruct (prefix_of p (c :: a ++ p ++ b)); eauto. rewrite IH. eauto.
Qed.
Lemma tokens_len_mono stop : forall n m s q, tokens_len stop n s = Ok q -> (n <= m)%nat -> tokens_len stop m s = Ok q.
Proof.
  induction n as [|n IH]; intros [|m] s q H L; cbn [tokens_len] in *; try discriminate; try lia.
  destruct (get_token s) as [t s']. destruct (same (txt t) stop); auto. destruct s' as [s'|]; auto.
  destruct (tokens_len stop n (Some s')) as [p| | |] eqn:E; cbn [rbind] in H; try discriminate.
  rewrite (IH m _ _ E) by lia. exact H.
Qed.
Lemma operand_mono stop n m s q : operand stop n s = Ok q -> (n <= m)%nat -> operand stop m s = Ok q.
Proof.
  unfold operand. intros H L. destruct (get_token s) as [t s'].
  destruct (tokens_len stop n s') as [p| | |] eqn:E; cbn [rbind] in H; try discriminate.
  rewrite (tokens_len_mono _ _ _ _ _ E L). exact H.
Qed.
Lemma delims_blank : In 32 delims /\ In 9 delims.
Proof. unfold delims; simpl; auto. Qed.
Lemma plain_word s : Forall (fun c => ~ In c delims) s -> s <> [] -> hd_error s <> Some 34 -> forall r,
  (forall c r', r = c :: r' -> In c delims) -> token_shape delims s r /\ ~ ends s.
Proof.
  intros F N Q r D. split; [now apply ts_word|]. destruct s as [|c s]; [congruence|]. inversion F; subst.
  intros [|[q E]]; [discriminate|]. injection E as -> _. apply H1. unfold delims; simpl; auto 20.
Qed.
Lemma symbol_word s : plain_symbol s -> Forall (fun c => ~ In c delims) s /\ s <> [] /\ hd_error s <> Some 34.
Proof.
  intros (N & F & _). split; [|split; auto].
  - eapply Forall_impl; [|exact F]. cbn. tauto.
  - destruct s as [|c s]; [discriminate|]. inversion F; subst. cbn. intros [= ->]. tauto.
Qed.
(** A word at the head *)
Lemma token_word g (w r : text) : blank g -> Forall (fun c => ~ In c delims) w -> w <> [] -> hd_error w <> Some 34 ->
  (forall c r', r = c :: r' -> In c delims) ->
  get_token (@Some text (g ++ w ++ r)) = (KStr w r, if at_end (skip_blanks r) then None else Some (skip_blanks r)).
Proof.
  intros B F N Q D. destruct (plain_word w F N Q r D). apply get_token_shape; auto; apply delims_blank.
Qed.
Lemma ends_with_app (a z : text) : ends_with (a ++ z) z = true.
Proof.
  unfold ends_with. rewrite app_length. replace (length a + length z - length z)%nat with (length a) by lia.
  rewrite skipn_app, skipn_all, Nat.sub_diag. cbn. clear. induction (map lower z) as [|c l IH]; cbn; auto.
  now rewrite Z.eqb_refl.
Qed.
Lemma no_at_not_got (t : text) : Forall (fun c => c <> 64) t -> is_got t = false.
Proof.
  intros F. unfold is_got. apply andb_false_iff. right. apply orb_false_iff.
  assert (X : forall z, In 64 (map lower z) -> ends_with t z = false).
  { intros z I. unfold ends_with. apply not_true_iff_false. intros E. apply list_eqb_eq in E. rewrite <- E in I.
    apply in_map_iff in I as (c & Ec & Ic). unfold lower in Ec.
    assert (c = 64) by (destruct (Z.leb_spec 65 c), (Z.leb_spec c 90); cbn in Ec; lia). subst c.
    rewrite Forall_forall in F. apply (F 64); auto. rewrite <- (firstn_skipn (length t - length z) t). apply in_or_app. right. exact Ic. }
  split; apply X; vm_compute; auto.
Qed.

Ltac each_reg I := unfold names_reg, reg_names in I; cbn [map fst snd] in I;
  repeat (destruct I as [I|I]; [injection I as <- <- <-|]); [..|destruct I].
Lemma reg_first_rest r i v : names_reg r i v ->
  tokens_len (str ",") 6 (@Some text (str "(%rip), " ++ r)) = Ok (6%nat, @Some text r).
Proof. intros I. each_reg I; vm_compute; reflexivity. Qed.
Lemma reg_last r i v : names_reg r i v -> operand [10] 6 (@Some text r) = Ok (r, r, None).
Proof. intros I. each_reg I; vm_compute; reflexivity. Qed.
Lemma reg_xmm r i v : names_reg r i v -> contains r (str "%xmm") = false.
Proof. intros I. each_reg I; vm_compute; reflexivity. Qed.
Lemma reg_rax r i v : names_reg r i v -> is_rax_reference r = (i =? 0).
Proof. intros I. each_reg I; vm_compute; reflexivity. Qed.
Lemma reg_not_rip r i v : names_reg r i v -> is_global_rip_reference r = false.
Proof. intros I. each_reg I; vm_compute; reflexivity. Qed.
Scheme Equality for view.
Lemma in_regs (x : Z * view * text) :
  existsb (fun y => (fst (fst y) =? fst (fst x)) && view_beq (snd (fst y)) (snd (fst x)) && list_eqb (snd y) (snd x)) reg_names = true ->
  In x reg_names.
Proof.
  intros H. apply existsb_exists in H as (y & I & E). apply andb_true_iff in E as (E & E3).
  apply andb_true_iff in E as (E1 & E2). apply Z.eqb_eq in E1. apply internal_view_dec_bl in E2. apply list_eqb_eq in E3.
  destruct x as [[a b] c], y as [[a' b'] c']. cbn in *. subst. exact I.
Qed.
Lemma reg_full_check : forallb (fun x : Z * view * text =>
  let '(i, v, r) := x in
  negb (view_beq v V64 || view_beq v V32 || (i <? 4))
  || match get_full_reg r with
     | Ok f => existsb (fun y => (fst (fst y) =? i) && view_beq (snd (fst y)) V64 && list_eqb (snd y) f) reg_names
     | _ => false
     end) reg_names = true.
Proof. vm_compute. reflexivity. Qed.
Lemma reg_full r i v : names_reg r i v -> v = V64 \/ v = V32 \/ i < 4 ->
  exists f, get_full_reg r = Ok f /\ names_reg f i V64.
Proof.
  intros I H. pose proof reg_full_check as C. rewrite forallb_forall in C. specialize (C _ I). cbn beta iota in C.
  assert (T : view_beq v V64 || view_beq v V32 || (i <? 4) = true).
  { rewrite !orb_true_iff. destruct H as [->|[->|H]]; auto. right. now apply Z.ltb_lt. }
  rewrite T in C. cbn [negb orb] in C. destruct (get_full_reg r) as [f| | |]; try discriminate.
  exists f. split; auto. apply (in_regs (i, V64, f)). exact C.
Qed.

Lemma mov_token fl (r : text) : plain_flavor fl -> skip_blanks r <> [] -> ~ ends (skip_blanks r) ->
  get_token (@Some text (str "	mov" ++ fl ++ 9 :: r)) = (KStr (str "mov" ++ fl) (9 :: r), @Some text (skip_blanks r)).
Proof.
  intros (F & L) N E.
  change (str "	mov" ++ fl ++ 9 :: r) with ([9] ++ (str "mov" ++ fl) ++ 9 :: r).
  rewrite token_word.
  - cbn [skip_blanks isblank Z.eqb Pos.eqb orb]. 
    destruct (at_end (skip_blanks r)) eqn:Ea; auto. apply at_end_spec in Ea. tauto.
  - constructor; auto.
  - apply Forall_app. split; auto. vm_compute. repeat constructor; intuition discriminate.
  - discriminate.
  - discriminate.
  - intros c r' [= <- _]. unfold delims; simpl; auto.
Qed.
Lemma symbol_skip sym (r : text) : plain_symbol sym -> skip_blanks (sym ++ r) = sym ++ r /\ ~ ends (sym ++ r).
Proof.
  intros P. destruct (symbol_word _ P) as (F & N & _). destruct sym as [|c s]; [congruence|].
  inversion F as [|? ? Hc _]; subst. cbn [app skip_blanks]. split.
  - replace (isblank c) with false; auto. symmetry. apply not_true_iff_false. rewrite isblank_spec.
    intros [->| ->]; apply Hc; unfold delims; simpl; auto.
  - intros [|[q H]]; [discriminate|]. injection H as -> _. apply Hc; unfold delims; simpl; auto 20.
Qed.
Lemma symbol_ref sym : plain_symbol sym -> is_global_rip_reference (sym ++ str "(%rip)") = true
  /\ is_got (sym ++ str "(%rip)") = false.
Proof.
  intros P. destruct (symbol_word _ P) as (F & N & _). split.
  - unfold is_global_rip_reference. change rip_suffix with (str "(%rip)"). rewrite ends_with_app, app_length.
    destruct P as (_ & _ & L). destruct sym as [|a [|b s]]; [congruence| |].
    + change (str ".L") with [46; 76]. cbn [app prefix_of str]. rewrite andb_false_r. reflexivity.
    + cbn [firstn] in L. change (str ".L") with [46; 76] in *. cbn [app prefix_of].
      destruct (Z.eqb_spec 46 a), (Z.eqb_spec 76 b); subst; try congruence; cbn [andb negb];
        rewrite ?andb_true_r; apply Nat.ltb_lt; cbn [length]; lia.
  - apply no_at_not_got. apply Forall_app. split.
    + destruct P as (_ & P & _). eapply Forall_impl; [|exact P]. cbn. tauto.
    + vm_compute. repeat constructor; discriminate.
Qed.
Lemma head_load fl sym r : plain_flavor fl -> plain_symbol sym ->
  get_token (@Some text (str "	mov" ++ fl ++ str "	" ++ sym ++ r)) = (KStr (str "mov" ++ fl) (9 :: sym ++ r), @Some text (sym ++ r)).
Proof.
  intros Hf Hs. destruct (symbol_skip sym r Hs) as (K1 & K2).
  change (str "	" ++ sym ++ r) with (9 :: (sym ++ r)). rewrite mov_token; rewrite ?K1; auto.
  intro X. apply K2. left. exact X.
Qed.
Lemma starts_mov fl : starts (str "mov" ++ fl) (str "mov") = true.
Proof. apply starts_spec. eauto. Qed.
Lemma flavor_of fl : skipn 3 (str "mov" ++ fl) = fl /\ (length (str "mov" ++ fl) - 3 = length fl)%nat.
Proof. split; [reflexivity|]. rewrite app_length. cbn. lia. Qed.

Theorem load_text fl sym r i v : plain_flavor fl -> plain_symbol sym -> names_reg r i v -> forall f, get_full_reg r = Ok f ->
  str_do_gotpcrel (str "	mov" ++ fl ++ str "	" ++ sym ++ str "(%rip), " ++ r)
  = Ok ((str "	movq	" ++ sym ++ str "@GOTPCREL(%rip), " ++ f) ++ 10
        :: str "	mov" ++ fl ++ str "	(" ++ f ++ str "), " ++ r).
Proof.
  intros Hf Hs Hr f Ef. unfold str_do_gotpcrel.
  rewrite (head_load fl sym (str "(%rip), " ++ r)) by auto. cbn [txt].
  rewrite starts_mov. cbn [negb].
  assert (C : contains (sym ++ str "(%rip), " ++ r) (str "%rip") = true).
  { change (str "(%rip), " ++ r) with ([40] ++ str "%rip" ++ str "), " ++ r). rewrite app_assoc. apply contains_app. }
  rewrite C. cbn [negb]. destruct (flavor_of fl) as (F1 & F2). rewrite F1, F2.
  replace (Nat.leb 16 (length fl)) with false by (symmetry; apply Nat.leb_gt; apply Hf).
  destruct (symbol_word _ Hs) as (W1 & W2 & W3).
  set (n := Datatypes.S (Datatypes.S (length _))).
  assert (Ln : (6 <= n)%nat).
  { unfold n. rewrite !app_length. cbn. lia. }
  assert (O1 : operand (str ",") n (@Some text (sym ++ str "(%rip), " ++ r))
               = Ok (sym ++ str "(%rip)", sym ++ str "(%rip), " ++ r, @Some text r)).
  { apply (operand_mono _ 6); auto. unfold operand.
    change (sym ++ str "(%rip), " ++ r) with ([] ++ sym ++ str "(%rip), " ++ r).
    rewrite token_word; auto; [|constructor|intros c q E; injection E as <- _; unfold delims; simpl; auto 20].
    cbn [app txt rest].
    assert (Sk : skip_blanks (str "(%rip), " ++ r) = str "(%rip), " ++ r) by reflexivity. rewrite Sk.
    assert (Ae : at_end (str "(%rip), " ++ r) = false) by reflexivity. rewrite Ae.
    rewrite (reg_first_rest r i v Hr). cbn [rbind fst snd].
    f_equal. f_equal. f_equal. rewrite firstn_app, firstn_all2 by lia.
    replace (length sym + 6 - length sym)%nat with 6%nat by lia. reflexivity. }
  rewrite O1. cbn [rbind]. rewrite (operand_mono _ 6 n _ _ (reg_last r i v Hr) Ln). cbn [rbind].
  destruct (symbol_ref sym Hs) as (R1 & R2). rewrite R1, R2, (reg_xmm r i v Hr), Ef. cbn [rbind].
  rewrite app_length. replace (length sym + length (str "(%rip)") - length rip_suffix)%nat with (length sym) by (cbn; lia).
  rewrite firstn_app, Nat.sub_diag, firstn_all. cbn [firstn]. rewrite app_nil_r.
  f_equal. change gotpcrel_suffix with (str "@GOTPCREL(%rip)").
  cbn [app]. rewrite <- !app_assoc. cbn [app]. reflexivity.
Qed.

(** A store: the source operand [t], which ends at the comma *)
Definition source_ok (t : text) : Prop :=
  t <> [] /\ ~ ends t /\ skip_blanks t = t /\
  forall q : text, skip_blanks q = q -> ~ ends q ->
  operand (str ",") 6 (@Some text (t ++ str ", " ++ q)) = Ok (t, t ++ str ", " ++ q, @Some text q).
Lemma skip_app (t q : text) : t <> [] -> skip_blanks t = t -> skip_blanks (t ++ q) = t ++ q.
Proof.
  destruct t as [|c t]; [congruence|]. intros _. cbn [skip_blanks app]. destruct (isblank c); auto.
  intros H. exfalso. assert (L : (length (skip_blanks t) <= length t)%nat).
  { clear. induction t as [|x t IH]; cbn; auto. destruct (isblank x); cbn; lia. }
  rewrite H in L. cbn in L. lia.
Qed.
Lemma comma_token (q : text) : skip_blanks q = q -> ~ ends q ->
  get_token (@Some text (str ", " ++ q)) = (KStr (str ",") (32 :: q), @Some text q).
Proof.
  intros K E. change (str ", " ++ q) with ([] ++ [44] ++ 32 :: q).
  unfold get_token. rewrite get_token_shape; try apply delims_blank.
  - cbn [skip_blanks isblank Z.eqb Pos.eqb orb]. rewrite K.
    destruct (at_end q) eqn:Ea; auto. apply at_end_spec in Ea. tauto.
  - constructor.
  - intros [|[? ?]]; discriminate.
  - apply ts_delim; [unfold delims; simpl; auto|discriminate|discriminate|discriminate].
Qed.
Lemma word_source w : Forall (fun c => ~ In c delims) w -> w <> [] -> hd_error w <> Some 34 -> source_ok w.
Proof.
  intros F N Q. split; [auto|].
  destruct (plain_word w F N Q [] ltac:(discriminate)) as (S & E). split; [auto|].
  pose proof (shape_not_blank delims w [] (proj1 delims_blank) (proj2 delims_blank) S) as K. rewrite app_nil_r in K.
  split; [auto|]. intros q Hq Eq. unfold operand.
  change (w ++ str ", " ++ q) with ([] ++ w ++ str ", " ++ q) at 1.
  rewrite token_word; auto; [|constructor|intros c r' [= <- _]; unfold delims; simpl; auto].
  cbn [txt rest app]. change (skip_blanks (str ", " ++ q)) with (str ", " ++ q).
  change (at_end (str ", " ++ q)) with false. cbv iota. cbn [tokens_len]. rewrite comma_token by auto. cbn [txt].
  rewrite same_refl. cbn [rbind fst snd]. rewrite Nat.add_0_r, firstn_app, Nat.sub_diag, firstn_all. cbn [firstn].
  now rewrite app_nil_r.
Qed.
Lemma dollar_source w : Forall (fun c => ~ In c delims) w -> w <> [] -> hd_error w <> Some 34 -> source_ok (36 :: w).
Proof.
  intros F N Q. split; [discriminate|]. split; [intros [|[? ?]]; discriminate|]. split; [reflexivity|].
  intros q Hq Eq. unfold operand.
  assert (T : get_token (@Some text ((36 :: w) ++ str ", " ++ q)) = (KStr [36] (w ++ str ", " ++ q), @Some text (w ++ str ", " ++ q))).
  { change ((36 :: w) ++ str ", " ++ q) with ([] ++ [36] ++ w ++ str ", " ++ q).
    unfold get_token. rewrite get_token_shape; try apply delims_blank.
    - pose proof (word_source w F N Q) as (_ & E1 & K & _). rewrite skip_app by auto.
      replace (at_end (w ++ str ", " ++ q)) with false; auto. symmetry. apply not_true_iff_false. rewrite at_end_spec.
      intros X. apply E1. destruct w as [|c w]; [now left|]. right. destruct X as [X|[y X]]; [discriminate|].
      injection X as -> _. eauto.
    - constructor.
    - intros [|[? ?]]; discriminate.
    - apply ts_delim; [unfold delims; simpl; auto 20|discriminate|discriminate|discriminate]. }
  rewrite T. cbn [txt rest].
  assert (TL : tokens_len (str ",") 6 (@Some text (w ++ str ", " ++ q)) = Ok (length w, @Some text q)).
  { cbn [tokens_len].
    change (w ++ str ", " ++ q) with ([] ++ w ++ str ", " ++ q).
    rewrite token_word; auto; [|constructor|intros c r' [= <- _]; unfold delims; simpl; auto].
    cbn [txt app]. replace (same w (str ",")) with false.
    - change (skip_blanks (str ", " ++ q)) with (str ", " ++ q).
      change (at_end (str ", " ++ q)) with false. cbv iota. rewrite comma_token by auto. cbn [txt].
      rewrite same_refl. cbn [rbind fst snd]. now rewrite Nat.add_0_r.
    - symmetry. apply not_true_iff_false. rewrite same_spec. intros ->. inversion F; subst. apply H1.
      unfold delims; simpl; auto. }
  rewrite TL. cbn [rbind fst snd length]. 
  replace (firstn (1 + length w) ([36] ++ w ++ str ", " ++ q)) with (36 :: w); [reflexivity|].
  cbn [app]. cbn [Nat.add firstn]. rewrite firstn_app, Nat.sub_diag, firstn_all. cbn [firstn]. now rewrite app_nil_r.
Qed.
Lemma reg_word r i v : names_reg r i v -> Forall (fun c => ~ In c delims) r /\ r <> [] /\ hd_error r <> Some 34.
Proof.
  intros I.
  assert (C : forallb (fun x : Z * view * text => negb (existsb (fun c => among c delims) (snd x))
              && match snd x with c :: _ => negb (c =? 34) | [] => false end) reg_names = true) by (vm_compute; reflexivity).
  rewrite forallb_forall in C. specialize (C _ I). cbn [snd] in C. apply andb_true_iff in C as (C1 & C2).
  split.
  - apply Forall_forall. intros c Ic D. apply negb_true_iff in C1.
    assert (X : existsb (fun c => among c delims) r = true) by (apply existsb_exists; exists c; split; auto; now apply among_spec).
    congruence.
  - destruct r as [|c r]; [discriminate|]. split; [discriminate|]. cbn. intros [= ->]. discriminate.
Qed.
Theorem store_text fl sym t aux : plain_flavor fl -> plain_symbol sym -> source_ok t ->
  is_global_rip_reference t = false -> aux = (if is_rax_reference t then str "%rbx" else str "%rax") ->
  str_do_gotpcrel (str "	mov" ++ fl ++ str "	" ++ t ++ str ", " ++ sym ++ str "(%rip)")
  = Ok ((str "	pushq	" ++ aux) ++ 10 :: (str "	movq	" ++ sym ++ str "@GOTPCREL(%rip), " ++ aux)
        ++ 10 :: (str "	mov" ++ fl ++ str "	" ++ t ++ str ", (" ++ aux ++ str ")")
        ++ 10 :: str "	popq	" ++ aux).
Proof.
  intros Hf Hs (T1 & T2 & T3 & T4) Nr ->. unfold str_do_gotpcrel.
  assert (K : skip_blanks (t ++ str ", " ++ sym ++ str "(%rip)") = t ++ str ", " ++ sym ++ str "(%rip)") by now apply skip_app.
  assert (H1 : get_token (@Some text (str "	mov" ++ fl ++ str "	" ++ t ++ str ", " ++ sym ++ str "(%rip)"))
           = (KStr (str "mov" ++ fl) (9 :: t ++ str ", " ++ sym ++ str "(%rip)"), @Some text (t ++ str ", " ++ sym ++ str "(%rip)"))).
  { change (str "	" ++ t ++ str ", " ++ sym ++ str "(%rip)") with (9 :: (t ++ str ", " ++ sym ++ str "(%rip)")).
    rewrite mov_token; rewrite ?K; auto.
    - destruct t; [congruence|discriminate].
    - intros X. apply T2. destruct t as [|c t]; [congruence|]. destruct X as [X|[y X]]; [discriminate|].
      injection X as -> _. right. eauto. }
  rewrite H1. cbn [txt]. rewrite starts_mov. cbn [negb].
  assert (C : contains (t ++ str ", " ++ sym ++ str "(%rip)") (str "%rip") = true).
  { replace (t ++ str ", " ++ sym ++ str "(%rip)") with ((t ++ str ", " ++ sym ++ [40]) ++ str "%rip" ++ [41])
      by (rewrite <- !app_assoc; reflexivity). apply contains_app. }
  rewrite C. cbn [negb]. destruct (flavor_of fl) as (F1 & F2). rewrite F1, F2.
  replace (Nat.leb 16 (length fl)) with false by (symmetry; apply Nat.leb_gt; apply Hf).
  set (n := Datatypes.S (Datatypes.S (length _))).
  assert (Ln : (6 <= n)%nat) by (unfold n; rewrite !app_length; cbn; lia).
  destruct (symbol_skip sym (str "(%rip)") Hs) as (S1 & S2).
  rewrite (operand_mono _ 6 n _ _ (T4 (sym ++ str "(%rip)") S1 S2) Ln). cbn [rbind].
  assert (O2 : operand [10] n (@Some text (sym ++ str "(%rip)")) = Ok (sym ++ str "(%rip)", sym ++ str "(%rip)", None)).
  { apply (operand_mono _ 6); auto. unfold operand. destruct (symbol_word _ Hs) as (W1 & W2 & W3).
    change (sym ++ str "(%rip)") with ([] ++ sym ++ str "(%rip)").
    rewrite token_word; auto; [|constructor|intros c q E; injection E as <- _; unfold delims; simpl; auto 20].
    cbn [app txt rest].
    assert (TL : tokens_len [10] 6 (if at_end (skip_blanks (str "(%rip)")) then None else Some (skip_blanks (str "(%rip)")))
                 = Ok (6%nat, None)) by (vm_compute; reflexivity).
    rewrite TL. cbn [rbind fst snd]. rewrite firstn_all2 by (rewrite app_length; cbn; lia). reflexivity. }
  rewrite O2. cbn [rbind]. rewrite Nr. destruct (symbol_ref sym Hs) as (R1 & R2). rewrite R1, R2.
  rewrite app_length. replace (length sym + length (str "(%rip)") - length rip_suffix)%nat with (length sym) by (cbn; lia).
  rewrite firstn_app, Nat.sub_diag, firstn_all. cbn [firstn]. rewrite app_nil_r.
  change gotpcrel_suffix with (str "@GOTPCREL(%rip)").
  f_equal. cbn [app]. repeat (rewrite <- !app_assoc; cbn [app]). reflexivity.
Qed.
