(** Proofs about the debug filter. *)
From Coq Require Import String.
From Verif Require Import Base BaseProofs StorageModel TextModel TextSpec TextProofs RenameModel RenameSpec RenameProofs
  TextLines ParseModel CmpModel CmpSpec CmpProofs DbgModel DbgSpec.
Open Scope list_scope.

Lemma first_word_iff (s : text) w : first_word s w <-> first_token s = w.
Proof.
  unfold first_word, first_token. split.
  - intros (ts & T). apply has_tokens_toks in T. inversion T as [|s' u q us E Q]; subst. now rewrite E.
  - intros <-. destruct (get_token (@Some text s)) as [t e] eqn:E. cbn [fst]. eapply has_first; eauto.
Qed.
Lemma begins_iff (s : text) p : begins s p <-> starts (first_token s) p = true.
Proof.
  unfold begins. rewrite starts_spec. split; intros (r & H); exists r; [now apply first_word_iff in H|now apply first_word_iff].
Qed.
Lemma first_word_same (s : text) w : first_word s w <-> same (first_token s) w = true.
Proof. rewrite first_word_iff, same_eq. tauto. Qed.
Lemma begins_any (s : text) (l : list String.string) :
  existsb (fun p => starts (first_token s) (str p)) l = true <-> exists p, In p (map str l) /\ begins s p.
Proof.
  rewrite existsb_exists. split.
  - intros (p & I & H). exists (str p). split; [now apply in_map|]. now apply begins_iff.
  - intros (p & I & H). apply in_map_iff in I as (q & <- & I). exists q. split; auto. now apply begins_iff.
Qed.
(** The token after the first *)
Lemma next_token (s q : text) t : get_token (@Some text s) = (t, @Some text q) ->
  exists t2 e2, get_token (@Some text q) = (t2, e2) /\ q = txt t2 ++ rest t2 /\ txt t2 <> [] /\ token_shape delims (txt t2) (rest t2).
Proof.
  intros E. destruct (get_token_spec delims s t (Some q) E) as [(_ & _ & X)|(_ & _ & _ & _ & _ & [(_ & X)|(NE & X)])]; try discriminate.
  injection X as ->. destruct (get_token (@Some text (skip_blanks (rest t)))) as [t2 e2] eqn:E2.
  exists t2, e2. split; [reflexivity|].
  destruct (get_token_spec delims _ t2 e2 E2) as [(X & _)|(_ & H & N & _ & Sh & _)].
  - exfalso. apply NE. now rewrite skip_blanks_idem in X.
  - rewrite skip_blanks_idem in H. auto.
Qed.
Lemma has_two (s : text) w v ts : has_tokens s (w :: v :: ts) <->
  exists t q t2 e2, get_token (@Some text s) = (t, @Some text q) /\ get_token (@Some text q) = (t2, e2) /\ txt t = w /\ txt t2 = v
    /\ toks e2 ts.
Proof.
  rewrite has_tokens_toks. split.
  - intros T. inversion T as [|s' u q us E Q]; subst. inversion Q as [|s' u2 q2 us2 E2 Q2]; subst.
    exists u, s', u2, q2. repeat split; auto.
  - intros (t & q & t2 & e2 & E & E2 & <- & <- & T). econstructor; [exact E|]. econstructor; [exact E2|exact T].
Qed.
Lemma toks_any e : exists ts, toks e ts.
Proof. destruct e as [q|]; [apply toks_exist|]. exists []. constructor. Qed.
Lemma is_digit_range d : is_digit d = true <-> 48 <= d <= 57.
Proof. unfold is_digit. rewrite andb_true_iff, !Z.leb_le. tauto. Qed.
Lemma file_cmd_iff (s : text) : is_file_cmd s = true <->
  exists d r ts, 48 <= d <= 57 /\ has_tokens s (str ".file" :: (d :: r) :: ts).
Proof.
  unfold is_file_cmd. rewrite andb_true_iff. unfold first_token. destruct (get_token (@Some text s)) as [t e] eqn:E. cbn [fst snd].
  rewrite same_eq. split.
  - intros (W & D). destruct e as [[|c q]|]; try discriminate.
    destruct (next_token s (c :: q) t E) as (t2 & e2 & E2 & H & N & _). destruct (txt t2) as [|d r] eqn:Et; [congruence|].
    injection H as -> _. destruct (toks_any e2) as (ts & T). exists d, r, ts. split; [now apply is_digit_range|].
    apply has_two. exists t, (d :: q), t2, e2. repeat split; auto.
  - intros (d & r & ts & D & T). apply has_two in T as (t' & q & t2 & e2 & E1 & E2 & W & V & _).
    rewrite E1 in E. injection E as <- <-. split; auto.
    destruct (next_token s q t' E1) as (t3 & e3 & E3 & H & _). rewrite E2 in E3. injection E3 as <- <-. rewrite V in H. subst q.
    cbn [app]. now apply is_digit_range.
Qed.
Lemma debug_line_iff o (s : text) : debug_line o s <->
  is_cold_hot s || is_comment s || is_loc_cmd s || is_file_cmd s || is_debug_lbl s || (do_cfi o && is_cfi_cmd s) = true.
Proof.
  unfold debug_line. rewrite <- file_cmd_iff, <- begins_any, first_word_same.
  unfold is_cold_hot, is_comment, is_loc_cmd, is_debug_lbl, is_cfi_cmd. cbn [existsb].
  rewrite !orb_true_iff, !andb_true_iff, begins_iff. intuition (try discriminate).
Qed.
Lemma text_label_iff (s : text) : text_label s <-> starts (first_token s) (str ".Ltext") || starts (first_token s) (str ".Letext") = true.
Proof. unfold text_label. now rewrite orb_true_iff, !begins_iff. Qed.
(** .section *)
Lemma find_ctype_in t d : find_ctype t = Some d -> In (t, d) directives.
Proof.
  unfold find_ctype. destruct (find _ directives) as [[w d']|] eqn:F; [|discriminate]. intros [= <-]. cbn [snd] in *.
  apply find_some in F as (I & F). apply same_eq in F. cbn [fst] in F. now subst.
Qed.
Lemma ctype_of a (s : text) d : parse_ctype a s = d -> d <> DComment -> d <> DLabel -> d <> DLocalLabel -> d <> DOther ->
  exists w, first_word s w /\ In (w, d) directives.
Proof.
  unfold parse_ctype. destruct (prefix_of _ _ || _); [congruence|].
  destruct (get_token (@Some text (skip_blanks s))) as [t e] eqn:E. unfold get_token in E.
  intros H N1 N2 N3 N4. exists (txt t). split.
  - apply first_word_iff. unfold first_token, get_token.
    assert (X : get_token_d delims (@Some text s) = get_token_d delims (Some (skip_blanks s))).
    { unfold get_token_d. now rewrite skip_blanks_idem. }
    change (@Some (list Z) s) with (@Some text s). rewrite X. unfold text in *. now rewrite E.
  - destruct (find_ctype (txt t)) as [d'|] eqn:F; [subst d'; now apply find_ctype_in|].
    destruct e as [[|c q]|]; try congruence.
    destruct (Z.eq_dec c 58) as [->|Nc]; [|exfalso; apply N4; clear - H Nc; destruct c as [|c|c]; auto;
      repeat (destruct c as [c|c|]; auto); now destruct Nc].
    destruct (txt t) as [|c' ?]; [congruence|]. destruct (is_digit c'); congruence.
Qed.
Lemma colon_shape (t r : text) : token_shape delims t r -> forall q, t ++ r = 58 :: q -> t = [58].
Proof.
  intros Sh q H. inversion Sh; subst; try discriminate.
  - injection H as -> _. reflexivity.
  - destruct t as [|c t]; [congruence|]. injection H as -> _. inversion H1; subst. exfalso. apply H5. unfold delims; simpl; auto 12.
Qed.
Lemma skip_token (s : text) : get_token (@Some text (skip_blanks s)) = get_token (@Some text s).
Proof. unfold get_token, get_token_d. now rewrite skip_blanks_idem. Qed.
Lemma label_tokens a (s : text) : parse_ctype a s = DLabel \/ parse_ctype a s = DLocalLabel ->
  exists w ts, has_tokens s (w :: [58] :: ts).
Proof.
  unfold parse_ctype. destruct (prefix_of _ _ || _); [intros []; discriminate|].
  change (@Some (list Z) (skip_blanks s)) with (@Some text (skip_blanks s)). rewrite skip_token.
  destruct (get_token (@Some text s)) as [t e] eqn:E. intros H.
  destruct (find_ctype (txt t)) as [d|] eqn:F.
  - apply find_ctype_in in F. exfalso.
    assert (C : forallb (fun x => match snd x with DLabel | DLocalLabel => false | _ => true end) directives = true) by (vm_compute; reflexivity).
    rewrite forallb_forall in C. specialize (C _ F). cbn [snd] in C. destruct H as [-> | ->]; discriminate.
  - destruct e as [[|c q]|]; try (destruct H; discriminate).
    assert (c = 58) as ->.
    { destruct (Z.eq_dec c 58) as [->|Nc]; auto. exfalso. clear - H Nc. destruct c as [|c|c]; try (destruct H; discriminate).
      repeat (destruct c as [c|c|]; try (destruct H; discriminate)); now destruct Nc. }
    destruct (next_token s (58 :: q) t E) as (t2 & e2 & E2 & Hq & N & Sh).
    assert (W : txt t2 = [58]) by (eapply colon_shape; eauto). destruct (toks_any e2) as (ts & T).
    exists (txt t), ts. apply has_two. exists t, (58 :: q), t2, e2. repeat split; auto.
Qed.
Lemma opens_iff a (s p : text) : p <> [] -> (is_section_start a s p = true <-> opens s p).
Proof.
  intros Np. unfold is_section_start, opens. rewrite andb_true_iff, starts_spec. split.
  - intros (D & r & H). 
    assert (D' : parse_ctype a s = DSection) by (destruct (parse_ctype a s); try discriminate; reflexivity).
    apply ctype_of in D'; try discriminate. destruct D' as (w & W & I).
    assert (w = str ".section") as ->.
    { assert (C : forallb (fun x => match snd x with DSection => list_eqb (fst x) (str ".section") | _ => true end) directives = true) by (vm_compute; reflexivity).
      rewrite forallb_forall in C. specialize (C _ I). cbn [snd fst] in C. now apply list_eqb_eq in C. }
    apply first_word_iff in W. unfold first_token in W. unfold second_token in H.
    change (@Some (list Z) s) with (@Some text s) in *.
    destruct (get_token (@Some text s)) as [t [q|]] eqn:E; cbn [fst snd] in *.
    + destruct (get_token (@Some text q)) as [t2 e2] eqn:E2. cbn [fst] in H. destruct (toks_any e2) as (ts & T).
      exists r, ts. apply has_two. exists t, q, t2, e2. repeat split; auto.
    + cbn in H. destruct p; [congruence|discriminate].
  - intros (r & ts & T). apply has_two in T as (t & q & t2 & e2 & E & E2 & W & V & _). split.
    + unfold parse_ctype. change (@Some (list Z) (skip_blanks s)) with (@Some text (skip_blanks s)). rewrite skip_token, E, W.
      destruct (get_token_spec delims s t (Some q) E) as [(_ & _ & X)|(_ & H & _)]; [discriminate|]. rewrite H, W. cbn. destruct (pa_slash a); reflexivity.
    + unfold second_token. change (@Some (list Z) s) with (@Some text s). rewrite E. cbn [snd]. 
      change (@Some (list Z) q) with (@Some text q). rewrite E2. cbn [fst]. eauto.
Qed.
Lemma section_rest_spec a ls : exists b t, ls = b ++ t ++ section_rest a ls /\ Forall (fun y => section_line a (st_text y)) b
  /\ (t = [] \/ exists y, t = [y] /\ first_word (st_text y) (str ".previous")).
Proof.
  induction ls as [|x ls (b & t & H & F & T)]; cbn [section_rest]; [exists [], []; repeat split; auto|].
  assert (Cont : section_line a (st_text x) -> exists b t, x :: ls = b ++ t ++ section_rest a ls /\ Forall (fun y => section_line a (st_text y)) b
     /\ (t = [] \/ exists y, t = [y] /\ first_word (st_text y) (str ".previous"))).
  { intros S. exists (x :: b), t. split; [cbn [app]; now rewrite <- H|]. split; [constructor|]; auto. }
  assert (Data : is_data_def a (st_text x) = true -> section_line a (st_text x)).
  { intros D. apply existsb_exists in D as (w & I & D). apply same_eq in D.
    assert (W : first_word (st_text x) w) by (apply first_word_iff; exact D).
    destruct W as (ts & W). exists w, ts. split; auto. }
  assert (Oth : exists b t, x :: ls = b ++ t ++ (if is_data_def a (st_text x) then section_rest a ls else x :: ls)
     /\ Forall (fun y => section_line a (st_text y)) b
     /\ (t = [] \/ exists y, t = [y] /\ first_word (st_text y) (str ".previous"))).
  { destruct (is_data_def a (st_text x)) eqn:D; [auto|]. exists [], []. repeat split; auto. }
  destruct (parse_ctype a (st_text x)) eqn:D; auto.
  - apply Cont. apply ctype_of in D; try discriminate. destruct D as (w & (ts & W) & I). exists w, ts. split; auto. left.
    assert (C : forallb (fun x => match snd x with DAlign => existsb (list_eqb (fst x)) [str ".align"; str ".p2align"] | _ => true end) directives = true) by (vm_compute; reflexivity).
    rewrite forallb_forall in C. specialize (C _ I). cbn [snd fst] in C. apply existsb_exists in C as (v & Iv & C). apply list_eqb_eq in C. now subst.
  - apply Cont. destruct (label_tokens a (st_text x)) as (w & ts & T'); auto. exists w, ([58] :: ts). split; eauto.
  - apply Cont. destruct (label_tokens a (st_text x)) as (w & ts & T'); auto. exists w, ([58] :: ts). split; eauto.
  - exists [], [x]. split; [reflexivity|]. split; [constructor|]. right. exists x. split; auto.
    apply ctype_of in D; try discriminate. destruct D as (w & W & I).
    assert (C : forallb (fun x => match snd x with DPrevious => list_eqb (fst x) (str ".previous") | _ => true end) directives = true) by (vm_compute; reflexivity).
    rewrite forallb_forall in C. specialize (C _ I). cbn [snd fst] in C. apply list_eqb_eq in C. now subst.
Qed.
Lemma section_rest_len a ls : (length (section_rest a ls) <= length ls)%nat.
Proof. destruct (section_rest_spec a ls) as (b & t & H & _). rewrite H at 2. rewrite !app_length. lia. Qed.
Lemma skip_section_spec a p : p <> [] -> forall n ls, (length ls <= n)%nat -> exists d r,
  skip_section a n p ls = Ok r /\ ls = d ++ r /\ sections a p d
  /\ (d = [] -> match ls with x :: _ => ~ opens (st_text x) p | [] => True end).
Proof.
  intros Np. induction n as [|n IH]; intros ls L; destruct ls as [|x ls]; cbn [skip_section]; try (cbn in L; lia).
  - exists [], []. repeat split; auto. constructor.
  - exists [], []. repeat split; auto. constructor.
  - destruct (is_section_start a (st_text x) p) eqn:E.
    + destruct (IH (section_rest a ls)) as (d & r & H & Hr & S & _); [pose proof (section_rest_len a ls); cbn in L; lia|].
      destruct (section_rest_spec a ls) as (b & t & Hb & F & T).
      exists (x :: b ++ t ++ d), r. split; auto. split; [cbn [app]; rewrite <- !app_assoc, <- Hr, <- Hb; reflexivity|].
      split; [constructor; auto; now apply (opens_iff a)|discriminate].
    + exists [], (x :: ls). repeat split; auto; [constructor|]. intros _ O. apply (opens_iff a) in O; auto. congruence.
Qed.
Lemma skipped_spec a p ls : p <> [] -> exists d r, skipped a p ls = Ok (length d) /\ ls = d ++ r /\ sections a p d
  /\ (d = [] -> match ls with x :: _ => ~ opens (st_text x) p | [] => True end).
Proof.
  intros Np. destruct (skip_section_spec a p Np (length ls) ls (le_n _)) as (d & r & H & E & S & Z0).
  exists d, r. unfold skipped. rewrite H. cbn [rbind]. repeat split; auto. f_equal. rewrite E, app_length. lia.
Qed.
Lemma skip_spec a o x ls : exists d r, debug_filter_skip a o (x :: ls) = Ok (length d) /\ x :: ls = d ++ r
  /\ (d <> [] -> group a o d r)
  /\ (d = [] -> ~ debug_line o (st_text x) /\ ~ text_label (st_text x) /\ forall p, debug_prefix o p -> ~ opens (st_text x) p).
Proof.
  unfold debug_filter_skip.
  destruct (_ || (do_cfi o && is_cfi_cmd (st_text x))) eqn:E1.
  { exists [x], ls. split; [reflexivity|]. split; [reflexivity|]. split; [|discriminate]. intros _. apply gr_line. now apply debug_line_iff. }
  assert (ND : ~ debug_line o (st_text x)) by (rewrite debug_line_iff, E1; discriminate).
  destruct (Nat.eqb (skip_ltext_lbl (x :: ls)) 0) eqn:E2; cbn [negb].
  2:{ unfold skip_ltext_lbl in *. destruct (same (first_token (st_text x)) (str ".text")) eqn:Tx.
      - destruct (nth_error (x :: ls) (1 + 1)) as [z|] eqn:Nz; [|discriminate].
        destruct (starts _ (str ".Ltext") || _) eqn:Z1; [|discriminate].
        destruct ls as [|y [|z' ls]]; try discriminate. injection Nz as ->.
        exists [x; y], (z :: ls). split; [reflexivity|]. split; [reflexivity|]. split; [|discriminate]. intros _.
        apply gr_text; [now apply first_word_same|now apply text_label_iff].
      - cbn [nth_error Nat.add] in *. destruct (starts _ (str ".Ltext") || _) eqn:Z1; [|discriminate].
        exists [x], ls. split; [reflexivity|]. split; [reflexivity|]. split; [|discriminate]. intros _. apply gr_label. now apply text_label_iff. }
  assert (NT : ~ text_label (st_text x)).
  { intros T. assert (T' := T). apply text_label_iff in T. unfold skip_ltext_lbl in E2.
    destruct (same (first_token (st_text x)) (str ".text")) eqn:Tx.
    - apply same_eq in Tx. rewrite Tx in T. vm_compute in T. discriminate.
    - cbn [nth_error Nat.add] in E2. rewrite T in E2. discriminate. }
  destruct (skipped_spec a (str ".debug_") (x :: ls)) as (d & r & H & E & S & Z0); [discriminate|]. rewrite H. cbn [rbind].
  destruct d as [|y d]; cbn [length Nat.eqb negb].
  2:{ exists (y :: d), r. split; [reflexivity|]. split; auto. split; [|discriminate]. intros _. eapply gr_sections; [left; reflexivity|discriminate|exact S]. }
  specialize (Z0 eq_refl). cbn [app] in E. subst r.
  assert (Step : forall (flag : bool) p, p <> [] -> (flag = true -> debug_prefix o p) ->
    exists d r, (if flag then skipped a p (x :: ls) else Ok 0%nat) = Ok (length d) /\ x :: ls = d ++ r
      /\ (d <> [] -> group a o d r) /\ (d = [] -> flag = true -> ~ opens (st_text x) p)).
  { intros flag p Np Hp. destruct flag.
    - destruct (skipped_spec a p (x :: ls) Np) as (d' & r' & H' & E' & S' & Z'). exists d', r'. split; auto. split; auto. split; auto.
      intros Nd. eapply gr_sections; eauto.
    - exists [], (x :: ls). repeat split; auto; discriminate || congruence. }
  destruct (Step (do_eh o) (str ".eh_frame")) as (d1 & r1 & H1 & E1' & G1 & Z1); [discriminate|right; left; auto|].
  rewrite H1. cbn [rbind]. destruct d1 as [|y1 d1]; cbn [length Nat.eqb negb].
  2:{ exists (y1 :: d1), r1. split; [reflexivity|]. split; auto. split; [exact G1|discriminate]. }
  destruct (Step (do_except o) (str ".gcc_except_table")) as (d2 & r2 & H2 & E2' & G2 & Z2); [discriminate|right; right; auto|].
  exists d2, r2. split; auto. split; auto. split; auto. intros Ed. split; auto. split; auto.
  intros p [-> |[(Fo & ->)|(Fo & ->)]]; auto.
Qed.
Lemma separator_spec (s : text) num nx : (exists e, separator s num nx = Ok e
    /\ ((num <> nx /\ e = [10]) \/ (~ num <> nx /\ (exists q c, s = q ++ [c] /\ c <> 58) /\ e = [59; 32])
        \/ (~ num <> nx /\ (exists q, s = q ++ [58]) /\ e = [])))
  \/ (separator s num nx = Crash /\ s = [] /\ num = nx).
Proof.
  unfold separator. destruct (Nat.eqb num nx) eqn:E; cbn [negb].
  - apply Nat.eqb_eq in E. destruct (rev s) as [|c q] eqn:R.
    + right. repeat split; auto. rewrite <- (rev_involutive s), R. reflexivity.
    + left. assert (s = rev q ++ [c]) as -> by (rewrite <- (rev_involutive s), R; reflexivity).
      eexists. split; [reflexivity|]. right. destruct (c =? 58) eqn:C.
      * apply Z.eqb_eq in C. subst. right. split; [lia|]. eauto.
      * apply Z.eqb_neq in C. left. split; [lia|]. split; eauto.
  - apply Nat.eqb_neq in E. left. eexists. split; [reflexivity|]. left. auto.
Qed.
Lemma newlines_spec o n : blank_lines o n (newlines o n).
Proof.
  unfold newlines, blank_lines. destruct (do_newlines o); [|left; auto]. right. destruct (Nat.ltb 16 n) eqn:E.
  - apply Nat.ltb_lt in E. right. auto.
  - apply Nat.ltb_ge in E. left. auto.
Qed.
Lemma filter_spec a o : forall n ls, (length ls <= n)%nat ->
  (exists out, filter_from a o n ls = Ok out /\ filtered a o ls out)
  \/ (filter_from a o n ls = Crash /\ exists p x r, ls = p ++ x :: r /\ st_text x = [] /\ st_num x = next_num r).
Proof.
  induction n as [|n IH]; intros ls L; destruct ls as [|x ls]; cbn [filter_from]; try (cbn in L; lia).
  - left. exists []. split; auto. constructor.
  - left. exists []. split; auto. constructor.
  - destruct (skip_spec a o x ls) as (d & r & H & E & G & K). rewrite H. cbn [rbind].
    destruct d as [|y d]; cbn [length].
    + destruct (K eq_refl) as (K1 & K2 & K3).
      destruct (separator_spec (st_text x) (st_num x) (next_num ls)) as [(e & -> & S)|(-> & S1 & S2)]; cbn [rbind].
      2:{ right. split; auto. exists [], x, ls. auto. }
      destruct (IH ls) as [(out & -> & F)|(-> & p & z & q & -> & Z)]; [cbn in L; lia| |]; cbn [rbind].
      * left. eexists. split; [reflexivity|]. apply fd_keep; auto.
      * right. split; auto. exists (x :: p), z, q. auto.
    + assert (skipn (S (length d)) (x :: ls) = r) as -> by (rewrite E; cbn [skipn app]; rewrite skipn_app, skipn_all, Nat.sub_diag; reflexivity).
      destruct (IH r) as [(out & -> & F)|(-> & p & z & q & -> & Z)]; [apply (f_equal (@length _)) in E; cbn in E, L; rewrite app_length in E; lia| |]; cbn [rbind].
      * left. eexists. split; [reflexivity|]. rewrite E. apply fd_drop; auto; [apply G; discriminate|apply newlines_spec].
      * right. split; auto. exists (y :: d ++ p), z, q. split; [rewrite E; cbn [app]; now rewrite <- app_assoc|auto].
Qed.
