(** Proofs about the comparison of code blocks. *)
From Coq Require Import String.
From Verif Require Import Base BaseProofs StorageModel TextModel TextSpec TextProofs ParseModel
  RenameModel RenameSpec RenameProofs CmpModel CmpSpec.
Open Scope list_scope.

(** ** The move of a number *)
Lemma is_space_spec c : is_space c = true <-> In c [32; 9; 10; 11; 12; 13].
Proof.
  unfold is_space. rewrite orb_true_iff, andb_true_iff, Z.eqb_eq, !Z.leb_le. split.
  - intros [->|H]; [simpl; auto|]. assert (c = 9 \/ c = 10 \/ c = 11 \/ c = 12 \/ c = 13) by lia. simpl. intuition lia.
  - intros H. simpl in H. intuition lia.
Qed.
Lemma skip_space_split s : exists w, blank_list w /\ s = w ++ skip_space s.
Proof.
  induction s as [|c s (w & H & E)]; [exists []; split; [constructor|reflexivity]|]. cbn.
  destruct (is_space c) eqn:S; [|exists []; split; [constructor|reflexivity]].
  exists (c :: w). split; [constructor; [now apply is_space_spec|auto]|]. cbn. now f_equal.
Qed.
Lemma skip_space_app w c r : blank_list w -> is_space c = false -> skip_space (w ++ c :: r) = c :: r.
Proof.
  intros H N. induction H as [|x w Hx H IH]; cbn; [now rewrite N|].
  apply is_space_spec in Hx. now rewrite Hx.
Qed.
Lemma span_spec p s : forall a b, span p s = (a, b) ->
  s = a ++ b /\ Forall (fun c => p c = true) a /\ (forall x q, b = x :: q -> p x = false).
Proof.
  induction s as [|c s IH]; intros a b H; cbn in H.
  - injection H as <- <-. repeat split; auto. discriminate.
  - destruct (p c) eqn:P.
    + destruct (span p s) as [u v]. injection H as <- <-. destruct (IH _ _ eq_refl) as (-> & F & B).
      repeat split; auto.
    + injection H as <- <-. repeat split; auto. intros x q E. injection E as <- <-. auto.
Qed.
Lemma span_app p a b : Forall (fun c => p c = true) a -> (forall x q, b = x :: q -> p x = false) -> span p (a ++ b) = (a, b).
Proof.
  intros F B. induction F as [|c a Hc F IH]; cbn [app span].
  - destruct b as [|x q]; auto. cbn. now rewrite (B x q eq_refl).
  - rewrite Hc, IH. reflexivity.
Qed.
Lemma is_digit_spec c : is_digit c = true <-> dec_char c.
Proof. unfold is_digit, dec_char. rewrite andb_true_iff, !Z.leb_le. tauto. Qed.
Lemma is_hex_spec c : is_hex c = true <-> hex_char c.
Proof. unfold is_hex, hex_char. rewrite !orb_true_iff, is_digit_spec, !andb_true_iff, !Z.leb_le. unfold dec_char. tauto. Qed.
Lemma is_oct_spec c : is_oct c = true <-> 48 <= c <= 55.
Proof. unfold is_oct. rewrite andb_true_iff, !Z.leb_le. tauto. Qed.
Lemma is_alnum_spec c : is_alnum c = true <-> reg_char c.
Proof. unfold is_alnum, reg_char. rewrite !orb_true_iff, is_digit_spec, !andb_true_iff, !Z.leb_le. unfold dec_char. tauto. Qed.

Definition scan_unsigned (r : text) : option text :=
  match r with
  | 48 :: x :: h :: q => if ((x =? 120) || (x =? 88)) then if is_hex h then Some (snd (span is_hex q)) else None
                         else Some (snd (span is_oct (x :: h :: q)))
  | 48 :: q => Some (snd (span is_oct q))
  | c :: q => if is_digit c then Some (snd (span is_digit q)) else None
  | [] => None
  end.
Lemma scan_int_unsigned s : scan_int s =
  match skip_space s with
  | c :: r => if (c =? 43) || (c =? 45) then scan_unsigned r else scan_unsigned (c :: r)
  | [] => None
  end.
Proof. reflexivity. Qed.
Definition scan_unsigned' (r : text) : option text :=
  match r with
  | c :: q => if c =? 48
              then match q with
                   | x :: h :: q' => if (x =? 120) || (x =? 88) then if is_hex h then Some (snd (span is_hex q')) else None
                                     else Some (snd (span is_oct q))
                   | _ => Some (snd (span is_oct q))
                   end
              else if is_digit c then Some (snd (span is_digit q)) else None
  | [] => None
  end.
Lemma scan_unsigned_eq r : scan_unsigned r = scan_unsigned' r.
Proof.
  destruct r as [|c q]; auto. unfold scan_unsigned, scan_unsigned'. destruct (Z.eqb_spec c 48) as [->|N].
  - destruct q as [|x [|h q]]; reflexivity.
  - destruct c as [|c|c]; try reflexivity.
    repeat (destruct c as [c|c|]; try reflexivity; try (exfalso; apply N; reflexivity)).
Qed.
Lemma scan_unsigned_ok r e : scan_unsigned r = Some e -> exists num, number num /\ r = num ++ e.
Proof.
  rewrite scan_unsigned_eq. destruct r as [|c q]; cbn; [discriminate|].
  assert (O : forall q, let (a, b) := span is_oct q in number (48 :: a) /\ q = a ++ b).
  { intros q'. destruct (span is_oct q') as [a b] eqn:S. destruct (span_spec _ _ _ _ S) as (E & F & _). split; auto.
    right. left. exists a. split; auto. eapply Forall_impl; [|exact F]. intros x. apply is_oct_spec. }
  destruct (Z.eqb_spec c 48) as [->|N].
  - destruct q as [|x [|h q']].
    + intros E. injection E as <-. exists [48]. split; auto. right; left. exists []; auto.
    + intros E. specialize (O [x]). destruct (span is_oct [x]) as [a b]. injection E as <-. destruct O as (O1 & O2).
      exists (48 :: a). split; auto. now rewrite O2.
    + destruct ((x =? 120) || (x =? 88)) eqn:X.
      * destruct (is_hex h) eqn:H; [|discriminate]. intros E. destruct (span is_hex q') as [a b] eqn:S.
        injection E as <-. destruct (span_spec _ _ _ _ S) as (-> & F & _).
        exists (48 :: x :: h :: a). split; auto. right; right. exists x, (h :: a).
        rewrite orb_true_iff, !Z.eqb_eq in X. repeat split; [simpl; intuition|discriminate|].
        constructor; [now apply is_hex_spec|]. eapply Forall_impl; [|exact F]. intros y. apply is_hex_spec.
      * intros E. specialize (O (x :: h :: q')). destruct (span is_oct (x :: h :: q')) as [a b]. injection E as <-.
        destruct O as (O1 & O2). exists (48 :: a). split; auto. now rewrite O2.
  - destruct (is_digit c) eqn:D; [|discriminate]. intros E. destruct (span is_digit q) as [a b] eqn:S. injection E as <-.
    destruct (span_spec _ _ _ _ S) as (-> & F & _). exists (c :: a). split; auto. left. exists c, a.
    apply is_digit_spec in D. unfold dec_char in D. repeat split; try lia. eapply Forall_impl; [|exact F].
    intros y. apply is_digit_spec.
Qed.
Lemma scan_unsigned_num num q : number num -> scan_unsigned (num ++ 44 :: q) = Some (44 :: q).
Proof.
  assert (B : forall p, p 44 = false -> forall x r, 44 :: q = x :: r -> p x = false).
  { intros p H x r E. injection E as <- <-. auto. }
  rewrite scan_unsigned_eq. intros [(c & r & -> & Hc & F)|[(r & -> & F)|(x & r & -> & Hx & Nr & F)]]; cbn [app scan_unsigned'].
  - replace (c =? 48) with false by (symmetry; apply Z.eqb_neq; lia).
    replace (is_digit c) with true by (symmetry; apply is_digit_spec; unfold dec_char; lia).
    rewrite span_app; [reflexivity| |now apply B]. eapply Forall_impl; [|exact F]. intros y. apply is_digit_spec.
  - assert (S : span is_oct (r ++ 44 :: q) = (r, 44 :: q)).
    { apply span_app; [|now apply B]. eapply Forall_impl; [|exact F]. intros y. apply is_oct_spec. }
    rewrite Z.eqb_refl.
    destruct r as [|x r]; [destruct q; reflexivity|]. cbn [app] in *. inversion F; subst. replace ((x =? 120) || (x =? 88)) with false
      by (symmetry; apply orb_false_iff; rewrite !Z.eqb_neq; lia).
    destruct (r ++ 44 :: q) eqn:E; [destruct r; discriminate|]. rewrite S. reflexivity.
  - rewrite Z.eqb_refl. destruct r as [|h r]; [congruence|]. cbn [app]. inversion F as [|? ? F1 F2]; subst.
    replace ((x =? 120) || (x =? 88)) with true
      by (symmetry; apply orb_true_iff; rewrite !Z.eqb_eq; simpl in Hx; intuition).
    replace (is_hex h) with true by (symmetry; now apply is_hex_spec).
    rewrite span_app; [reflexivity| |now apply B]. eapply Forall_impl; [|exact F2]. intros y. apply is_hex_spec.
Qed.

Lemma prefix_of_spec p (s : text) : prefix_of p s = true <-> exists r, s = p ++ r.
Proof.
  revert s. induction p as [|c p IH]; intros s; cbn.
  - split; eauto.
  - destruct s as [|x s]; [split; [discriminate|intros (r & E); discriminate]|].
    rewrite andb_true_iff, Z.eqb_eq, IH. split.
    + intros (-> & r & ->). eauto.
    + intros (r & E). injection E as -> ->. eauto.
Qed.
Lemma mov_const_reg_spec s reg : mov_const_reg s = Some reg <-> moves_number s reg.
Proof.
  unfold mov_const_reg. split.
  - destruct (skip_space_split s) as (w1 & W1 & E1). set (s1 := skip_space s) in *. clearbody s1. subst s.
    destruct (prefix_of (str "mov") s1) eqn:P; [|discriminate]. apply prefix_of_spec in P as (s2 & ->).
    change (skipn 3 (str "mov" ++ s2)) with s2. destruct s2 as [|c s2]; [discriminate|].
    destruct (skip_space_split s2) as (w2 & W2 & E2). set (s3 := skip_space s2) in *. clearbody s3. subst s2.
    intros H.
    assert (X : exists s3', s3 = 36 :: s3' /\ match scan_int s3' with
              | Some (44 :: s4) => match skip_space s4 with
                                   | 37 :: s5 => match span is_alnum s5 with ([], _) => None | (r, _) => Some (firstn 31 r) end
                                   | _ => None
                                   end
              | _ => None
              end = Some reg).
    { destruct s3 as [|d s3]; [discriminate|]. destruct (Z.eq_dec d 36) as [->|N]; [eauto|].
      exfalso. revert H. destruct d as [|d|d]; try discriminate.
      repeat (destruct d as [d|d|]; try discriminate; try (exfalso; apply N; reflexivity)). }
    clear H. destruct X as (s3' & -> & H).
    destruct (scan_int s3') as [e|] eqn:SI; [|discriminate].
    assert (X : exists e', e = 44 :: e' /\ match skip_space e' with
                                   | 37 :: s5 => match span is_alnum s5 with ([], _) => None | (r, _) => Some (firstn 31 r) end
                                   | _ => None
                                   end = Some reg).
    { destruct e as [|d e]; [discriminate|]. destruct (Z.eq_dec d 44) as [->|N]; [eauto|].
      exfalso. revert H. destruct d as [|d|d]; try discriminate.
      repeat (destruct d as [d|d|]; try discriminate; try (exfalso; apply N; reflexivity)). }
    clear H. destruct X as (e' & -> & H).
    destruct (skip_space_split e') as (w4 & W4 & E4). set (s4 := skip_space e') in *. clearbody s4. subst e'.
    assert (X : exists e', s4 = 37 :: e' /\ match span is_alnum e' with ([], _) => None | (r, _) => Some (firstn 31 r) end = Some reg).
    { destruct s4 as [|d e]; [discriminate|]. destruct (Z.eq_dec d 37) as [->|N]; [eauto|].
      exfalso. revert H. destruct d as [|d|d]; try discriminate.
      repeat (destruct d as [d|d|]; try discriminate; try (exfalso; apply N; reflexivity)). }
    clear H. destruct X as (s5 & -> & H).
    destruct (span is_alnum s5) as [r rest] eqn:SP. destruct (span_spec _ _ _ _ SP) as (-> & F & B).
    assert (Nr : r <> []) by (intros ->; discriminate).
    assert (reg = firstn 31 r) by (destruct r; [congruence|congruence]). clear H.
    rewrite scan_int_unsigned in SI. destruct (skip_space_split s3') as (w3 & W3 & E3).
    set (u := skip_space s3') in *. clearbody u. subst s3'.
    assert (X : exists sign num, u = sign ++ num ++ 44 :: w4 ++ 37 :: r ++ rest /\ In sign [[]; [43]; [45]] /\ number num).
    { destruct u as [|d u]; [discriminate|]. destruct ((d =? 43) || (d =? 45)) eqn:SG.
      - apply scan_unsigned_ok in SI as (num & Hn & ->). exists [d], num. repeat split; auto.
        apply orb_true_iff in SG. rewrite !Z.eqb_eq in SG. simpl. destruct SG as [-> | ->]; auto.
      - apply scan_unsigned_ok in SI as (num & Hn & E). exists [], num. repeat split; auto. simpl; auto. }
    destruct X as (sign & num & -> & Hs & Hn).
    exists w1, c, w2, w3, sign, num, w4, r, rest. repeat (split; [auto; fail|]).
    split; [eapply Forall_impl; [|exact F]; intros y; apply is_alnum_spec|]. split; auto.
    intros x q Eq Hx. apply is_alnum_spec in Hx. rewrite (B x q Eq) in Hx. discriminate.
  - intros (w1 & c & w2 & w3 & sign & num & w4 & r & rest & -> & W1 & W2 & W3 & W4 & Hs & Hn & Nr & F & B & ->).
    change (str "mov" ++ c :: w2 ++ 36 :: w3 ++ sign ++ num ++ 44 :: w4 ++ 37 :: r ++ rest)
      with (109 :: 111 :: 118 :: c :: w2 ++ 36 :: w3 ++ sign ++ num ++ 44 :: w4 ++ 37 :: r ++ rest).
    rewrite skip_space_app; auto. cbn [prefix_of str]. 
    change (prefix_of (str "mov") (109 :: 111 :: 118 :: c :: w2 ++ 36 :: w3 ++ sign ++ num ++ 44 :: w4 ++ 37 :: r ++ rest)) with true.
    cbn [skipn]. rewrite skip_space_app; auto.
    assert (SI : scan_int (w3 ++ sign ++ num ++ 44 :: w4 ++ 37 :: r ++ rest) = Some (44 :: w4 ++ 37 :: r ++ rest)).
    { rewrite scan_int_unsigned.
      assert (Hd : exists d t, num = d :: t /\ is_space d = false /\ (d =? 43) || (d =? 45) = false).
      { destruct Hn as [(d & t & -> & Hd & _)|[(t & -> & _)|(x & t & -> & _)]]; eauto.
        exists d, t. repeat split; auto.
        - apply not_true_iff_false. intros X. apply is_space_spec in X. simpl in X. lia.
        - apply orb_false_iff. rewrite !Z.eqb_neq. lia. }
      destruct Hd as (d & t & En & D1 & D2).
      simpl in Hs. destruct Hs as [<-|[<-|[<-|[]]]]; cbn [app].
      - rewrite En. cbn [app]. rewrite skip_space_app by auto. rewrite D2.
        change (d :: t ++ 44 :: w4 ++ 37 :: r ++ rest) with ((d :: t) ++ 44 :: w4 ++ 37 :: r ++ rest). rewrite <- En.
        now apply scan_unsigned_num.
      - rewrite skip_space_app by auto. cbn [Z.eqb Pos.eqb orb]. now apply scan_unsigned_num.
      - rewrite skip_space_app by auto. cbn [Z.eqb Pos.eqb orb]. now apply scan_unsigned_num. }
    rewrite SI. rewrite skip_space_app; auto. rewrite span_app.
    + destruct r; [congruence|reflexivity].
    + eapply Forall_impl; [|exact F]. intros y. apply is_alnum_spec.
    + intros x q Eq. apply not_true_iff_false. intros X. apply is_alnum_spec in X. eapply B; eauto.
Qed.

(** ** Tokens at the head of a line *)
Lemma has_first (s : text) t e : get_token (Some s) = (t, e) -> exists ts, has_tokens s (txt t :: ts).
Proof.
  intros E. destruct e as [q|].
  - destruct (toks_exist q) as (ts & T). exists ts. apply has_tokens_toks. econstructor; eauto.
  - exists []. apply has_tokens_toks. econstructor; eauto. constructor.
Qed.
Lemma has_first2 (s : text) t e t2 e2 : get_token (Some s) = (t, e) -> get_token e = (t2, e2) -> txt t2 <> [] ->
  exists ts, has_tokens s (txt t :: txt t2 :: ts).
Proof.
  intros E E2 N. destruct e as [q|]; [|cbn in E2; injection E2 as <- <-; destruct N; reflexivity].
  destruct (has_first q t2 e2 E2) as (ts & T). exists ts. apply has_tokens_toks. apply has_tokens_toks in T.
  econstructor; eauto.
Qed.
Lemma has_first3 (s : text) t e t2 e2 t3 e3 : get_token (Some s) = (t, e) -> get_token e = (t2, e2) -> get_token e2 = (t3, e3) ->
  txt t2 <> [] -> txt t3 <> [] -> exists ts, has_tokens s (txt t :: txt t2 :: txt t3 :: ts).
Proof.
  intros E E2 E3 N2 N3. destruct e as [q|]; [|cbn in E2; injection E2 as <- <-; destruct N2; reflexivity].
  destruct (has_first2 q t2 e2 t3 e3 E2 E3 N3) as (ts & T). exists ts. apply has_tokens_toks. apply has_tokens_toks in T.
  econstructor; eauto.
Qed.
Lemma same_eq a b : same a b = true <-> a = b.
Proof. apply same_spec. Qed.

Lemma Forall2_imp {A B} (P Q : A -> B -> Prop) l m : (forall x y, P x y -> Q x y) -> Forall2 P l m -> Forall2 Q l m.
Proof. induction 2; constructor; auto. Qed.

Definition env_around (c : cmpenv) : around :=
  {| ar_type := ce_type c; ar_nm0 := ce_nm0 c; ar_nm1 := ce_nm1 c; ar_dir0 := ce_dir0 c; ar_dir1 := ce_dir1 c;
     ar_m0 := rename_find (ce_r0 c); ar_m1 := rename_find (ce_r1 c); ar_rhel5 := ce_rhel5 c |}.

Lemma cmp_skip_split ls : exists p, Forall no_code p /\ ls = p ++ cmp_skip ls.
Proof.
  induction ls as [|x r (p & F & E)]; [exists []; auto|]. cbn.
  destruct (is_sect_cmd (l_type x) || dir_beq (l_type x) DGlobl || list_eqb (l_text x) []) eqn:C; [|exists []; auto].
  exists (x :: p). split; [|cbn; now f_equal]. constructor; auto.
  unfold no_code. rewrite !orb_true_iff in C. destruct C as [[C|C]|C].
  - right. destruct (l_type x); try discriminate; simpl; auto 12.
  - right. destruct (l_type x); try discriminate; simpl; auto 12.
  - left. now apply list_eqb_eq.
Qed.
Lemma cmp_skip_head ls x r : cmp_skip ls = x :: r -> ~ no_code x.
Proof.
  induction ls as [|y q IH]; cbn; [discriminate|].
  destruct (is_sect_cmd (l_type y) || dir_beq (l_type y) DGlobl || list_eqb (l_text y) []) eqn:C; auto.
  intros E. injection E as <- <-. rewrite !orb_false_iff in C. destruct C as [[C1 C2] C3].
  intros [N|N]; [apply list_eqb_eq in N; congruence|]. simpl in N.
  repeat destruct N as [N|N]; try (rewrite <- N in *; discriminate). destruct N.
Qed.
Lemma cmp_skip_len ls : (length (cmp_skip ls) <= length ls)%nat.
Proof. destruct (cmp_skip_split ls) as (p & _ & E). rewrite E at 2. rewrite app_length. lia. Qed.
Lemma same_code_skip e l0 l1 : same_code e (cmp_skip l0) (cmp_skip l1) -> same_code e l0 l1.
Proof.
  destruct (cmp_skip_split l0) as (p0 & F0 & E0), (cmp_skip_split l1) as (p1 & F1 & E1).
  intros H. rewrite E0, E1. clear E0 E1. induction F0; cbn; [|now constructor].
  induction F1; cbn; [auto|now constructor].
Qed.
Lemma same_text_skip l0 l1 : same_text (cmp_skip l0) (cmp_skip l1) -> same_text l0 l1.
Proof.
  destruct (cmp_skip_split l0) as (p0 & F0 & E0), (cmp_skip_split l1) as (p1 & F1 & E1).
  intros H. rewrite E0, E1. clear E0 E1. induction F0; cbn; [|now constructor].
  induction F1; cbn; [auto|now constructor].
Qed.

(** ** The call that is passed a line number *)
Lemma possible_funcs_in s0 s1 fn reg : In (fn, reg) (possible_funcs s0 s1) <->
  moves_number s0 reg /\ moves_number s1 reg /\ In (fn, reg) reports_line.
Proof.
  change reports_line with lineno_functions. rewrite <- !mov_const_reg_spec. unfold possible_funcs.
  destruct (mov_const_reg s0) as [a|]; [|cbn; split; [tauto|intros (H & _); discriminate]].
  destruct (mov_const_reg s1) as [b|]; [|cbn; split; [tauto|intros (_ & H & _); discriminate]].
  destruct (list_eqb a b) eqn:E.
  - apply list_eqb_eq in E. subst b. rewrite filter_In. cbn [snd]. rewrite list_eqb_eq. split.
    + intros (I & ->). auto.
    + intros (H & _ & I). injection H as ->. auto.
  - split; [intros []|]. intros (H1 & H2 & _). exfalso. injection H1 as ->. injection H2 as ->.
    rewrite (proj2 (list_eqb_eq reg reg) eq_refl) in E. discriminate.
Qed.
Lemma minus_in p q x : In x (minus p q) <-> In x p /\ ~ In x q.
Proof.
  unfold minus. rewrite filter_In, negb_true_iff, <- not_true_iff_false, existsb_exists.
  split; intros (I & N); split; auto; intros X; apply N.
  - exists x. split; auto. rewrite !(proj2 (list_eqb_eq _ _) eq_refl). reflexivity.
  - destruct X as (y & Y & E). apply andb_true_iff in E as (E1 & E2). apply list_eqb_eq in E1, E2.
    destruct x, y. cbn in E1, E2. now subst.
Qed.
Lemma lineno_call_ok r0 r1 : forall n possible l0 l1 q0 q1,
  (forall f g, In (f, g) possible -> f <> []) ->
  lineno_call n r0 r1 possible l0 l1 = Ok (Some (q0, q1)) ->
  exists w0 w1 c0 c1 fn reg, l0 = w0 ++ c0 :: q0 /\ l1 = w1 ++ c1 :: q1 /\ (length w0 < n)%nat
    /\ In (fn, reg) possible /\ calls (l_text c0) fn
    /\ Forall2 (fun x y => same_tokens (rename_find r0) (rename_find r1) (l_text x) (l_text y)
                           /\ ~ In (fn, reg) (possible_funcs (l_text x) (l_text y))) (w0 ++ [c0]) (w1 ++ [c1]).
Proof.
  induction n as [|n IH]; intros possible l0 l1 q0 q1 NE H; [discriminate|]. cbn [lineno_call] in H.
  destruct l0 as [|x0 l0]; [discriminate|]. destruct l1 as [|x1 l1]; [discriminate|].
  set (p := minus possible (possible_funcs (l_text x0) (l_text x1))) in *.
  destruct p as [|pe pr] eqn:Ep; [discriminate|].
  destruct (strcmp_after_rename_spec r0 r1 (l_text x0) (l_text x1)) as (b & Eb & Hb). rewrite Eb in H. cbn [rbind] in H.
  destruct b; [discriminate|]. pose proof (proj1 Hb eq_refl) as ST.
  destruct (get_token (Some (l_text x0))) as [t s] eqn:Et.
  destruct (same (txt t) (str "call")) eqn:Ec.
  - destruct (get_token s) as [fn e] eqn:Ef. rewrite <- Ep in H. destruct (existsb (fun x => same (txt fn) (fst x)) p) eqn:Ex; [|discriminate].
    injection H as <- <-. apply existsb_exists in Ex as ((f, reg) & I & S). cbn in S. apply same_eq in S, Ec. subst f.
    exists [], [], x0, x1, (txt fn), reg. repeat (split; [try reflexivity; cbn; lia|]).
    unfold p in I. apply minus_in in I as (I & NI).
    split; [auto|]. split.
    + unfold calls. rewrite <- Ec. eapply has_first2; eauto.
    + constructor; [|constructor]. auto.
  - apply IH in H; [|intros f g I; rewrite <- Ep in I; unfold p in I; apply minus_in in I as (I & _); now apply (NE f g)].
    destruct H as (w0 & w1 & c0 & c1 & fn & reg & -> & -> & L & I & C & F).
    rewrite <- Ep in I. unfold p in I. apply minus_in in I as (I & NI).
    exists (x0 :: w0), (x1 :: w1), c0, c1, fn, reg. repeat (split; [try reflexivity; cbn; lia|]).
    repeat (split; [assumption|]). cbn [app]. constructor; auto.
Qed.
Lemma lineno_call_total r0 r1 : forall n possible l0 l1, exists m, lineno_call n r0 r1 possible l0 l1 = Ok m.
Proof.
  induction n as [|n IH]; intros possible l0 l1; cbn [lineno_call]; eauto.
  destruct l0 as [|x0 l0]; eauto. destruct l1 as [|x1 l1]; eauto.
  destruct (minus possible _) eqn:Ep; eauto.
  destruct (strcmp_after_rename_spec r0 r1 (l_text x0) (l_text x1)) as (b & Eb & _). rewrite Eb. cbn [rbind].
  destruct b; eauto. destruct (get_token (Some (l_text x0))) as [t s].
  destruct (same (txt t) (str "call")); eauto. destruct (get_token s); eauto.
Qed.
Lemma match_lineno_total r0 r1 x0 x1 q0 q1 : exists m, match_lineno_func r0 r1 x0 x1 q0 q1 = Ok m.
Proof. unfold match_lineno_func. destruct (possible_funcs _ _); eauto using lineno_call_total. Qed.
Lemma match_lineno_ok r0 r1 x0 x1 q0 q1 p0 p1 : match_lineno_func r0 r1 x0 x1 q0 q1 = Ok (Some (p0, p1)) ->
  exists w0 w1 c0 c1 fn reg, q0 = w0 ++ c0 :: p0 /\ q1 = w1 ++ c1 :: p1 /\ (length w0 <= 14)%nat
    /\ moves_number (l_text x0) reg /\ moves_number (l_text x1) reg /\ In (fn, reg) reports_line
    /\ calls (l_text c0) fn
    /\ Forall2 (fun x y => same_tokens (rename_find r0) (rename_find r1) (l_text x) (l_text y)
                           /\ ~ (moves_number (l_text x) reg /\ moves_number (l_text y) reg)) (w0 ++ [c0]) (w1 ++ [c1]).
Proof.
  unfold match_lineno_func. destruct (possible_funcs (l_text x0) (l_text x1)) as [|pe pr] eqn:Ep; [discriminate|].
  rewrite <- Ep. intros H. apply lineno_call_ok in H.
  - destruct H as (w0 & w1 & c0 & c1 & fn & reg & -> & -> & L & I & C & F).
    apply possible_funcs_in in I as (M0 & M1 & I). exists w0, w1, c0, c1, fn, reg.
    repeat (split; [auto; lia|]). eapply Forall2_imp; [|exact F]. cbn beta. intros x y (S & N). split; auto.
    intros (A & B). apply N. apply possible_funcs_in. auto.
  - intros f g I. apply possible_funcs_in in I as (_ & _ & I).
    assert (X : forallb (fun y => negb (list_eqb (fst y) [])) reports_line = true) by (vm_compute; reflexivity).
    rewrite forallb_forall in X. specialize (X _ I). intros ->. discriminate.
Qed.
Lemma match_lineno_len r0 r1 x0 x1 q0 q1 p0 p1 : match_lineno_func r0 r1 x0 x1 q0 q1 = Ok (Some (p0, p1)) ->
  (length p0 <= length q0)%nat.
Proof. intros H. apply match_lineno_ok in H as (w0 & w1 & c0 & c1 & fn & reg & -> & _). rewrite app_length. cbn. lia. Qed.

(** ** The excuses *)
Lemma bug5_ok s : bug5 s = true -> old_trap s.
Proof.
  unfold bug5, old_trap. destruct (get_token (Some s)) as [t0 e0] eqn:E0. destruct (get_token e0) as [t1 e1] eqn:E1.
  destruct (get_token e1) as [t2 e2] eqn:E2. destruct (get_token_d [32; 9; 44; 59] e2) as [? e3].
  destruct (get_token e3) as [t4 e4]. destruct (get_token e4) as [t5 e5]. destruct (get_token_d [32; 9; 44; 59] e5) as [? e6].
  rewrite !andb_true_iff, !same_eq. intros (((((A & B) & C) & _) & _) & _).
  destruct (has_first3 _ _ _ _ _ _ _ E0 E1 E2) as (ts & T); [rewrite B; discriminate|rewrite C; discriminate|].
  rewrite A, B, C in T. eauto.
Qed.
Lemma word_first s d : same (txt (fst (get_token (Some s)))) d = true -> exists ts, has_tokens s (d :: ts).
Proof.
  rewrite same_eq. intros <-. destruct (get_token (Some s)) as [t e] eqn:E. cbn [fst]. eapply has_first; eauto.
Qed.
Lemma match_bug_on_ok rh x0 x1 : match_bug_on rh x0 x1 = true ->
  if rh then old_trap (l_text x0) /\ old_trap (l_text x1) else bug_line x0 /\ bug_line x1.
Proof.
  unfold match_bug_on. destruct rh.
  - rewrite andb_true_iff. intros (A & B). split; now apply bug5_ok.
  - rewrite !andb_true_iff, orb_true_iff, !andb_true_iff, !prefix_of_spec, !list_eqb_eq.
    change (bug_entry ++ [32]) with entry.
    intros ((A & B) & [(C & D)|(C & D)]); split; split; auto; right; now apply word_first.
Qed.
Lemma match_build_path_ok d0 d1 s0 s1 : match_build_path d0 d1 s0 s1 = true ->
  exists r, path_line d0 s0 r /\ path_line d1 s1 r /\ exists ts, has_tokens s0 (str ".string" :: ts).
Proof.
  unfold match_build_path. destruct (get_token (Some s0)) as [a0 e0] eqn:E0. destruct (get_token (Some s1)) as [a1 e1] eqn:E1.
  rewrite !andb_true_iff, !same_eq, !starts_spec.
  intros (A & ((((r0 & B0) & (r1 & B1)) & (u0 & C0)) & (u1 & C1)) & D).
  destruct (get_token e0) as [t0 f0] eqn:F0. destruct (get_token e1) as [t1 f1] eqn:F1. cbn [fst] in *.
  rewrite B0 in C0. rewrite B1 in C1. cbn [app tl] in C0, C1. subst r0 r1.
  rewrite B0, B1 in D. cbn [app tl] in D. rewrite !skipn_app, !skipn_all, !Nat.sub_diag in D. cbn [app skipn] in D. subst u1.
  exists u0. unfold path_line.
  destruct (has_first2 _ _ _ _ _ E0 F0) as (ts & T); [rewrite B0; discriminate|].
  destruct (has_first2 _ _ _ _ _ E1 F1) as (us & U); [rewrite B1; discriminate|].
  split; [|split].
  - exists (txt a0), (txt t0), ts. auto.
  - exists (txt a1), (txt t1), us. auto.
  - rewrite A in T. eauto.
Qed.
Lemma match_var_descriptor_ok n0 n1 s0 s1 : match_var_descriptor n0 n1 s0 s1 = true ->
  (exists r, n0 = str "descriptor." ++ r) /\ (exists r, n1 = str "descriptor." ++ r)
  /\ (exists ts, has_tokens s0 (str ".byte" :: ts)) /\ (exists ts, has_tokens s1 (str ".byte" :: ts)).
Proof.
  unfold match_var_descriptor. rewrite !andb_true_iff, !starts_spec. intros (((A & B) & C) & D).
  repeat split; auto; now apply word_first.
Qed.

(** ** The comparison *)
Lemma dir_beq_eq a b : dir_beq a b = true <-> a = b.
Proof. split; [apply internal_dir_dec_bl|apply internal_dir_dec_lb]. Qed.
Lemma is_local_comm_spec d : is_local_comm d = true <-> In d [DLocal; DComm].
Proof. unfold is_local_comm. rewrite orb_true_iff, !dir_beq_eq. simpl. intuition. Qed.
Lemma section_test x0 x1 : negb (list_eqb (sc_name (l_sect x0)) (sc_name (l_sect x1)))
  && negb (is_local_comm (l_type x0)) && negb (is_local_comm (l_type x1)) = false <-> same_section x0 x1.
Proof.
  unfold same_section. rewrite !andb_false_iff, !negb_false_iff, list_eqb_eq, !is_local_comm_spec. tauto.
Qed.
Theorem cmp_fuel_same c : ce_sect c = true -> ce_rename c = true -> forall n l0 l1,
  cmp_fuel n c l0 l1 = Ok false -> same_code (env_around c) l0 l1.
Proof.
  intros S R. induction n as [|n IH]; intros l0 l1 H; apply same_code_skip; cbn [cmp_fuel] in H;
    destruct (cmp_skip l0) as [|x0 q0]; destruct (cmp_skip l1) as [|x1 q1]; try discriminate; try exact (sm_nil _).
  rewrite S, R in H. cbn [andb] in H.
  destruct (negb (list_eqb (sc_name (l_sect x0)) (sc_name (l_sect x1)))
     && negb (is_local_comm (l_type x0)) && negb (is_local_comm (l_type x1))) eqn:T; [discriminate|].
  apply section_test in T.
  destruct (dir_beq (l_type x0) DComment && dir_beq (l_type x1) DComment) eqn:C.
  { apply andb_true_iff in C as (C0 & C1). apply dir_beq_eq in C0, C1. apply sm_comment; auto. }
  destruct (strcmp_after_rename_spec (ce_r0 c) (ce_r1 c) (l_text x0) (l_text x1)) as (b & Eb & Hb).
  rewrite Eb in H. cbn [rbind] in H. destruct b; cbn [negb] in H.
  2:{ apply sm_same; auto. exact (proj1 Hb eq_refl). }
  destruct (ce_type c) eqn:Ty; try discriminate.
  - destruct (match_lineno_func (ce_r0 c) (ce_r1 c) x0 x1 q0 q1) as [[(p0, p1)|]| | |] eqn:M; cbn [rbind] in H; try discriminate.
    + apply match_lineno_ok in M as (w0 & w1 & c0 & c1 & fn & reg & -> & -> & L & M0 & M1 & I & K & F).
      eapply sm_lineno; eauto.
    + destruct (match_bug_on (ce_rhel5 c) x0 x1) eqn:B; [|discriminate].
      apply sm_excused; auto. unfold excused. cbn [env_around ar_type ar_rhel5]. rewrite Ty. now apply match_bug_on_ok.
  - destruct (match_build_path _ _ _ _ || match_var_descriptor _ _ _ _) eqn:B; [|discriminate].
    apply sm_excused; auto. unfold excused. cbn [env_around ar_type]. rewrite Ty. apply orb_true_iff in B as [B|B].
    + left. now apply match_build_path_ok.
    + right. now apply match_var_descriptor_ok.
Qed.
Theorem cmp_fuel_text c : ce_sect c = false -> ce_rename c = false -> ce_type c = BOther -> forall n l0 l1,
  cmp_fuel n c l0 l1 = Ok false -> same_text l0 l1.
Proof.
  intros S R Ty. induction n as [|n IH]; intros l0 l1 H; apply same_text_skip; cbn [cmp_fuel] in H;
    destruct (cmp_skip l0) as [|x0 q0]; destruct (cmp_skip l1) as [|x1 q1]; try discriminate; try exact sx_nil.
  rewrite S, R, Ty in H. cbn [andb] in H.
  destruct (dir_beq (l_type x0) DComment && dir_beq (l_type x1) DComment) eqn:C.
  { apply andb_true_iff in C as (C0 & C1). apply dir_beq_eq in C0, C1. apply sx_comment; auto. }
  cbn [rbind] in H. destruct (list_eqb (l_text x0) (l_text x1)) eqn:E; cbn [negb] in H; [|discriminate].
  apply list_eqb_eq in E. apply sx_same; auto.
Qed.
Theorem cmp_total c : forall n l0 l1, (length l0 < n)%nat -> exists b, cmp_fuel n c l0 l1 = Ok b.
Proof.
  induction n as [|n IH]; intros l0 l1 L; [lia|]. cbn [cmp_fuel]. pose proof (cmp_skip_len l0) as L0.
  destruct (cmp_skip l0) as [|x0 q0]; destruct (cmp_skip l1) as [|x1 q1]; eauto. cbn in L0.
  destruct (ce_sect c && _ && _ && _); eauto. destruct (dir_beq (l_type x0) DComment && _); [apply IH; lia|].
  assert (D : exists d, (if ce_rename c then strcmp_after_rename (ce_r0 c) (ce_r1 c) (l_text x0) (l_text x1)
                    else Ok (negb (list_eqb (l_text x0) (l_text x1)))) = Ok d).
  { destruct (ce_rename c); eauto. destruct (strcmp_after_rename_spec (ce_r0 c) (ce_r1 c) (l_text x0) (l_text x1)) as (b & Eb & _). eauto. }
  destruct D as (d & ->). cbn [rbind]. destruct d; cbn [negb]; [|apply IH; lia].
  destruct (ce_type c); eauto.
  - destruct (match_lineno_total (ce_r0 c) (ce_r1 c) x0 x1 q0 q1) as ([(p0, p1)|] & M); rewrite M; cbn [rbind].
    + apply match_lineno_len in M. apply IH. lia.
    + destruct (match_bug_on _ _ _); eauto. apply IH. lia.
  - destruct (match_build_path _ _ _ _ || _); eauto. apply IH. lia.
Qed.
(** Blocks whose lines of code are the same are found to be. *)
Definition alike (c : cmpenv) (x0 x1 : line) : Prop :=
  (ce_sect c = true -> same_section x0 x1)
  /\ ((l_type x0 = DComment /\ l_type x1 = DComment)
      \/ if ce_rename c then same_tokens (rename_find (ce_r0 c)) (rename_find (ce_r1 c)) (l_text x0) (l_text x1)
         else l_text x0 = l_text x1).
Definition code_line (x : line) : bool := negb (is_sect_cmd (l_type x) || dir_beq (l_type x) DGlobl || list_eqb (l_text x) []).
Lemma cmp_skip_filter ls : match filter code_line ls with
                           | [] => cmp_skip ls = []
                           | x :: r => exists q, cmp_skip ls = x :: q /\ filter code_line q = r
                           end.
Proof.
  induction ls as [|x r IH]; cbn; auto. unfold code_line at 1.
  destruct (is_sect_cmd (l_type x) || dir_beq (l_type x) DGlobl || list_eqb (l_text x) []); cbn [negb]; eauto.
Qed.
Theorem cmp_alike c : forall n l0 l1, (length l0 < n)%nat ->
  Forall2 (alike c) (filter code_line l0) (filter code_line l1) -> cmp_fuel n c l0 l1 = Ok false.
Proof.
  induction n as [|n IH]; intros l0 l1 L F; [lia|]. cbn [cmp_fuel].
  pose proof (cmp_skip_filter l0) as S0. pose proof (cmp_skip_filter l1) as S1. pose proof (cmp_skip_len l0) as L0.
  destruct F as [|x0 x1 r0 r1 (Hs & Ht) F].
  - now rewrite S0, S1.
  - destruct S0 as (q0 & E0 & <-), S1 as (q1 & -> & <-). rewrite E0 in *. cbn in L0.
    replace (ce_sect c && negb (list_eqb (sc_name (l_sect x0)) (sc_name (l_sect x1)))
      && negb (is_local_comm (l_type x0)) && negb (is_local_comm (l_type x1))) with false.
    2:{ symmetry. destruct (ce_sect c); auto. cbn [andb]. apply section_test. auto. }
    destruct (dir_beq (l_type x0) DComment && dir_beq (l_type x1) DComment) eqn:C; [apply IH; auto; lia|].
    destruct Ht as [(T0 & T1)|Ht]; [rewrite T0, T1 in C; discriminate|].
    destruct (ce_rename c).
    + destruct (strcmp_after_rename_spec (ce_r0 c) (ce_r1 c) (l_text x0) (l_text x1)) as (b & Eb & Hb). rewrite Eb. cbn [rbind].
      rewrite (proj2 Hb Ht). cbn [negb]. apply IH; auto; lia.
    + rewrite (proj2 (list_eqb_eq _ _) Ht). cbn [rbind negb]. apply IH; auto; lia.
Qed.
