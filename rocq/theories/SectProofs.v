(** Proofs about the sections of lines. *)
From Coq Require Import String.
From Verif Require Import Base BaseProofs StorageModel TextModel TextSpec TextProofs RenameModel RenameProofs GotSpec GotProofs
  ParseModel SectSpec.
Open Scope list_scope.

Lemma sect_delims_blank : In 32 sect_delims /\ In 9 sect_delims.
Proof. unfold sect_delims. simpl. auto. Qed.
(** The rest behind the directive *)
Lemma after_directive g w g' c r : blank g -> word_of w -> blank g' -> g' <> [] -> c <> 32 -> c <> 9 -> c <> 10 ->
  snd (get_token (@Some text (g ++ w ++ g' ++ c :: r))) = @Some text (c :: r).
Proof.
  intros Bg (W1 & W2 & W3) Bg' Ng C1 C2 C3.
  assert (K : skip_blanks (g' ++ c :: r) = c :: r).
  { rewrite skip_blanks_blank by auto. cbn. unfold isblank.
    apply Z.eqb_neq in C1, C2. now rewrite C1, C2. }
  rewrite token_word; auto.
  - cbn [snd]. rewrite K. cbn [at_end]. apply Z.eqb_neq in C3. now rewrite C3.
  - intros x r' E. destruct g' as [|y g']; [congruence|]. injection E as -> _. inversion Bg'; subst.
    unfold delims; simpl. intuition auto.
Qed.
Lemma section_line (s : text) n tab cur : names_section s n -> exists x tab',
  parse_section_line tab s cur = (x, tab') /\ sc_name x = n /\ sc_prev x = Some cur
  /\ exists more, tab' = tab ++ more.
Proof.
  intros (g & w & g' & r & Bg & Hw & Bg' & Ng & H).
  assert (D : exists nm s1, get_token (@Some text s) = (fst (get_token (@Some text s)), s1)
              /\ exists s2, get_token_d sect_delims s1 = (nm, s2) /\ section_name nm = n).
  { destruct H as [((N1 & N2 & N3) & Hr & ->)|(N1 & N2 & N3 & ->)].
    - destruct n as [|c n]; [congruence|]. inversion N2 as [|? ? Hc N2']; subst.
      assert (A : snd (get_token (@Some text (g ++ w ++ g' ++ c :: n ++ r))) = @Some text (c :: n ++ r)).
      { apply after_directive; auto; intros ->; apply Hc; simpl; auto 8. }
      exists (KStr (c :: n) r), (@Some text (c :: n ++ r)). split; [rewrite <- A; apply surjective_pairing|].
      assert (T : get_token_d sect_delims (@Some text ([] ++ (c :: n) ++ r))
                  = (KStr (c :: n) r, if at_end (skip_blanks r) then None else Some (skip_blanks r))).
      { apply get_token_shape; try apply sect_delims_blank; [constructor| |apply ts_word; auto].
        intros [|[q E]]; [discriminate|]. injection E as -> _. apply Hc. simpl; auto 8. }
      cbn [app] in T. eexists. split; [exact T|]. unfold section_name. cbn [txt rest].
      assert (Nc : c <> 34) by (intros ->; now apply N3).
      clear - Nc. destruct c as [|c|c]; try reflexivity.
      repeat (destruct c as [c|c|]; try reflexivity; try (exfalso; apply Nc; reflexivity)).
    - assert (A : snd (get_token (@Some text (g ++ w ++ g' ++ 34 :: n ++ 34 :: r))) = @Some text (34 :: n ++ 34 :: r)).
      { apply after_directive; auto; discriminate. }
      exists (KStr (34 :: n ++ [34]) r), (@Some text (34 :: n ++ 34 :: r)). split; [rewrite <- A; apply surjective_pairing|].
      assert (Q : quote_body n).
      { clear - N2 N3. induction n as [|c n IH]; constructor; try (intros ->); try (apply IH); intuition (simpl in *; auto). }
      assert (T : get_token_d sect_delims (@Some text ([] ++ (34 :: n ++ [34]) ++ r))
                  = (KStr (34 :: n ++ [34]) r, if at_end (skip_blanks r) then None else Some (skip_blanks r))).
      { apply get_token_shape; try apply sect_delims_blank; [constructor| |now apply ts_quoted].
        intros [|[q E]]; discriminate. }
      cbn [app] in T. rewrite <- app_assoc in T. cbn [app] in T. eexists. split; [exact T|].
      unfold section_name. cbn [txt rest].
      destruct (n ++ [34]) as [|y q] eqn:E; [destruct n; discriminate|].
      assert (R : rev (y :: q) = 34 :: rev n) by (rewrite <- E, rev_app_distr; reflexivity). rewrite R.
      rewrite <- E. apply removelast_last. }
  destruct D as (nm & s1 & D1 & s2 & D2 & D3). unfold parse_section_line.
  change (@Some (list Z) s) with (@Some text s). rewrite D1, D2, D3.
  destruct (find_section tab n) as [[n' o e p]|] eqn:F.
  - exists (Sect n' o e (Some cur)), tab. repeat split; [|exists []; now rewrite app_nil_r].
    apply find_some in F as (_ & F). apply list_eqb_eq in F. exact F.
  - eexists _, _. repeat split. eexists. reflexivity.
Qed.

(** The flags *)
Lemma x_first_flags (fl : text) r : ~ In 34 fl -> x_first (fl ++ 34 :: r) = existsb (Z.eqb 120) fl.
Proof.
  induction fl as [|c fl IH]; intros N; [reflexivity|]. cbn [app x_first existsb]. rewrite (Z.eqb_sym 120 c).
  destruct (c =? 120); [reflexivity|]. replace (c =? 34) with false by (symmetry; apply Z.eqb_neq; intros ->; apply N; now left).
  apply IH. intros I. apply N. now right.
Qed.
Lemma quote_body_plain (n : text) : ~ In 34 n -> ~ In 92 n -> quote_body n.
Proof. intros N2 N3. induction n as [|c n IH]; constructor; try (intros ->); try (apply IH); intuition (simpl in *; auto). Qed.
Lemma section_flags (s : text) n fl tab cur : names_flags s n fl -> find_section tab n = None ->
  exists x, parse_section_line tab s cur = (x, tab ++ [x]) /\ sc_name x = n /\ sc_exec x = existsb (Z.eqb 120) fl.
Proof.
  intros (g & w & g' & g1 & g2 & r0 & Bg & Hw & Bg' & Ng & B1 & B2 & F1 & F2 & H) Fn.
  set (r := g1 ++ 44 :: g2 ++ 34 :: fl ++ 34 :: r0) in *.
  assert (Kr : skip_blanks r = 44 :: g2 ++ 34 :: fl ++ 34 :: r0) by (unfold r; rewrite skip_blanks_blank by auto; reflexivity).
  assert (D : exists nm s1, get_token (@Some text s) = (fst (get_token (@Some text s)), s1)
              /\ get_token_d sect_delims s1 = (nm, @Some text (44 :: g2 ++ 34 :: fl ++ 34 :: r0)) /\ section_name nm = n).
  { destruct H as [((N1 & N2 & N3) & ->)|(N1 & N2 & N3 & ->)].
    - destruct n as [|c n]; [congruence|]. inversion N2 as [|? ? Hc N2']; subst.
      assert (A : snd (get_token (@Some text (g ++ w ++ g' ++ c :: n ++ r))) = @Some text (c :: n ++ r)).
      { apply after_directive; auto; intros ->; apply Hc; simpl; auto 8. }
      exists (KStr (c :: n) r), (@Some text (c :: n ++ r)). split; [rewrite <- A; apply surjective_pairing|].
      assert (T : get_token_d sect_delims (@Some text ([] ++ (c :: n) ++ r))
                  = (KStr (c :: n) r, if at_end (skip_blanks r) then None else Some (skip_blanks r))).
      { apply get_token_shape; try apply sect_delims_blank; [constructor| |apply ts_word; auto].
        - intros [|[q E]]; [discriminate|]. injection E as -> _. apply Hc. simpl; auto 8.
        - intros x q E. unfold r in E. destruct g1 as [|y g1]; [injection E as <- _; simpl; auto 8|].
          injection E as -> _. inversion B1; subst. simpl. intuition auto. }
      cbn [app] in T. rewrite Kr in T. split; [exact T|]. unfold section_name. cbn [txt rest].
      assert (Nc : c <> 34) by (intros ->; now apply N3).
      clear - Nc. destruct c as [|c|c]; try reflexivity.
      repeat (destruct c as [c|c|]; try reflexivity; try (exfalso; apply Nc; reflexivity)).
    - assert (A : snd (get_token (@Some text (g ++ w ++ g' ++ 34 :: n ++ 34 :: r))) = @Some text (34 :: n ++ 34 :: r)).
      { apply after_directive; auto; discriminate. }
      exists (KStr (34 :: n ++ [34]) r), (@Some text (34 :: n ++ 34 :: r)). split; [rewrite <- A; apply surjective_pairing|].
      pose proof (quote_body_plain n N2 N3) as Q.
      assert (T : get_token_d sect_delims (@Some text ([] ++ (34 :: n ++ [34]) ++ r))
                  = (KStr (34 :: n ++ [34]) r, if at_end (skip_blanks r) then None else Some (skip_blanks r))).
      { apply get_token_shape; try apply sect_delims_blank; [constructor| |now apply ts_quoted].
        intros [|[q E]]; discriminate. }
      cbn [app] in T. rewrite <- app_assoc in T. cbn [app] in T. rewrite Kr in T. split; [exact T|].
      unfold section_name. cbn [txt rest].
      destruct (n ++ [34]) as [|y q] eqn:E; [destruct n; discriminate|].
      assert (R : rev (y :: q) = 34 :: rev n) by (rewrite <- E, rev_app_distr; reflexivity). rewrite R.
      rewrite <- E. apply removelast_last. }
  destruct D as (nm & s1 & D1 & D2 & D3). unfold parse_section_line.
  change (@Some (list Z) s) with (@Some text s). rewrite D1, D2, D3, Fn.
  assert (T1 : get_token (@Some text (44 :: g2 ++ 34 :: fl ++ 34 :: r0)) = (KStr [44] (g2 ++ 34 :: fl ++ 34 :: r0), @Some text (34 :: fl ++ 34 :: r0))).
  { pose proof (get_token_shape delims [] [44] (g2 ++ 34 :: fl ++ 34 :: r0)) as T. cbn [app] in T. unfold get_token. rewrite T.
    - rewrite skip_blanks_blank by auto. reflexivity.
    - unfold delims; simpl; auto.
    - unfold delims; simpl; auto.
    - constructor.
    - intros [|[q E]]; discriminate.
    - apply ts_delim; unfold delims; simpl; intuition discriminate. }
  assert (T2 : fst (get_token (@Some text (34 :: fl ++ 34 :: r0))) = KStr (34 :: fl ++ [34]) r0).
  { pose proof (get_token_shape delims [] (34 :: fl ++ [34]) r0) as T. cbn [app] in T. rewrite <- app_assoc in T. cbn [app] in T. unfold get_token. rewrite T.
    - reflexivity.
    - unfold delims; simpl; auto.
    - unfold delims; simpl; auto.
    - constructor.
    - intros [|[q E]]; discriminate.
    - apply ts_quoted. now apply quote_body_plain. }
  rewrite T1. cbn [txt]. change (negb (same [44] (str ","))) with false. cbv iota.
  destruct (get_token (@Some text (34 :: fl ++ 34 :: r0))) as [at_ s4]. cbn [fst] in T2. subst at_. cbn [txt rest].
  eexists. split; [reflexivity|]. split; [reflexivity|]. cbn [sc_exec].
  change ((34 :: fl ++ [34]) ++ r0) with (34 :: (fl ++ [34]) ++ r0). rewrite <- app_assoc. cbn [app]. now apply x_first_flags.
Qed.

(** The tables that have the standard sections *)
Definition standard (tab : list sect) : Prop := exists more, tab = predefined ++ more.
Lemma standard_app tab more : standard tab -> standard (tab ++ more).
Proof. intros (m & ->). exists (m ++ more). now rewrite app_assoc. Qed.
Lemma standard_find tab n : standard tab -> In n [str ".text"; str ".data"; str ".bss"] ->
  exists s, find_section tab n = Some s /\ sc_name s = n.
Proof.
  intros (m & ->) H. unfold find_section. 
  assert (F : forall l (f : sect -> bool) s, find f l = Some s -> find f (l ++ m) = Some s).
  { induction l as [|x l IH]; cbn; intros f s E; [discriminate|]. destruct (f x); auto. }
  simpl in H. destruct H as [<-|[<-|[<-|[]]]]; eexists; (split; [apply F; vm_compute; reflexivity|reflexivity]).
Qed.

(** The state of the parser and that of the assembler *)
Definition agrees (p : phase) (cur : sect) (g : gas) : Prop :=
  sc_name cur = g_cur g
  /\ match p with
     | Fresh => True
     | Known => exists q, sc_prev cur = Some q /\ g_prev g = Some (sc_name q)
     | Pushed => exists q p' s, sc_prev cur = Some q /\ g_stack g = (sc_name q, p') :: s
     end.
Lemma dup_ok n o e p prev : dup_section (Some (Sect n o e p)) prev = Ok (Sect n o e (Some prev)).
Proof. reflexivity. Qed.
Lemma dup_name s prev : exists x, dup_section (Some s) prev = Ok x /\ sc_name x = sc_name s /\ sc_prev x = Some prev.
Proof. destruct s as [n o e p]. eexists. split; [reflexivity|]. split; reflexivity. Qed.
Lemma step_ok tab d s o p r cur g : standard tab -> says d s o -> simple p (o :: r) -> agrees p cur g ->
  exists x tab' p', next_section tab d s cur = Ok (x, tab') /\ standard tab' /\ simple p' r /\ agrees p' x (gas_step g o).
Proof.
  intros St Sy Si (Ag & Ap).
  assert (Ent : forall y, next_section tab d s cur = Ok (y, tab) -> sc_prev y = Some cur -> o = Enter (sc_name y) ->
           exists x tab' p', next_section tab d s cur = Ok (x, tab') /\ standard tab' /\ simple p' r /\ agrees p' x (gas_step g o)).
  { intros y E1 E2 ->. exists y, tab, Known. split; auto. split; auto.
    cbn [simple] in Si. split; [destruct p; try contradiction; auto|]. split; [reflexivity|].
    exists cur. split; auto. cbn. now rewrite Ag. }
  assert (Std : forall n, In n [str ".text"; str ".data"; str ".bss"] ->
           next_section tab d s cur = (do x <- dup_section (find_section tab n) cur; Ok (x, tab)) -> o = Enter n ->
           exists x tab' p', next_section tab d s cur = Ok (x, tab') /\ standard tab' /\ simple p' r /\ agrees p' x (gas_step g o)).
  { intros n I E1 E2. destruct (standard_find tab n St I) as (y & Fy & Ny). rewrite Fy in E1.
    destruct (dup_name y cur) as (x & Dx & Nx & Px). rewrite Dx in E1. cbn [rbind] in E1.
    apply (Ent x); auto. congruence. }
  assert (Sta : next_section tab d s cur = Ok (cur, tab) -> o = Stay ->
           exists x tab' p', next_section tab d s cur = Ok (x, tab') /\ standard tab' /\ simple p' r /\ agrees p' x (gas_step g o)).
  { intros E1 ->. exists cur, tab, p. repeat split; auto. }
  destruct d; cbn [says] in Sy; try (apply Sta; [reflexivity|exact Sy]).
  - eapply Std; [|reflexivity|exact Sy]. simpl; auto.
  - eapply Std; [|reflexivity|exact Sy]. simpl; auto.
  - eapply Std; [|reflexivity|exact Sy]. simpl; auto.
  - destruct Sy as (n & Hn & ->). destruct (section_line s n tab cur Hn) as (x & tab' & E & Nx & Px & m & ->).
    exists x, (tab ++ m), Known. cbn [next_section]. rewrite E. split; auto. split; [now apply standard_app|].
    cbn [simple] in Si. split; [destruct p; try contradiction; auto|]. split; [exact Nx|]. exists cur. split; auto. cbn. now rewrite Ag.
  - destruct Sy as (n & Hn & ->). destruct (section_line s n tab cur Hn) as (x & tab' & E & Nx & Px & m & ->).
    exists x, (tab ++ m), Pushed. cbn [next_section]. rewrite E. split; auto. split; [now apply standard_app|].
    cbn [simple] in Si. split; [destruct p; try contradiction; auto|]. split; [exact Nx|].
    exists cur, (g_prev g), (g_stack g). split; auto. cbn. now rewrite Ag.
  - subst o. cbn [simple] in Si. destruct p; try contradiction. destruct Ap as (q & p' & st & Pq & Gq).
    destruct (dup_name q cur) as (x & Dx & Nx & Px). exists x, tab, Fresh. cbn [next_section]. rewrite Pq, Dx. cbn [rbind].
    split; auto. split; auto. split; auto. split; auto. cbn [gas_step]. rewrite Gq. exact Nx.
  - subst o. destruct (dup_name cur cur) as (x & Dx & Nx & Px). exists x, tab, Known. cbn [next_section]. rewrite Dx. cbn [rbind].
    split; auto. split; auto. cbn [simple] in Si. split; [destruct p; try contradiction; auto|]. split; [rewrite Nx; exact Ag|].
    exists cur. split; auto. cbn. now rewrite Ag.
  - subst o. cbn [simple] in Si. destruct p; try contradiction. destruct Ap as (q & Pq & Gq).
    destruct (dup_name q cur) as (x & Dx & Nx & Px). exists x, tab, Known. cbn [next_section]. rewrite Pq, Dx. cbn [rbind].
    split; auto. split; auto. split; auto. cbn [gas_step]. rewrite Gq. split; auto. exists cur. split; auto. cbn. now rewrite Ag.
Qed.
Lemma sections_ok a : forall ls os tab cur p g, standard tab ->
  Forall2 (fun x o => says (parse_ctype a (st_text x)) (st_text x) o) ls os -> simple p os -> agrees p cur g ->
  exists xs tab', sections_from a tab cur ls = Ok (xs, tab') /\ standard tab'
    /\ map (fun x => sc_name (l_sect x)) xs = gas_sections g os
    /\ map l_text xs = map st_text ls /\ map l_num xs = map st_num ls /\ map l_type xs = map (fun x => parse_ctype a (st_text x)) ls.
Proof.
  induction ls as [|x ls IH]; intros os tab cur p g St F Si Ag; inversion F as [|? o ? os' Ho F']; subst; cbn [sections_from].
  - exists [], tab. repeat split; auto.
  - destruct (step_ok tab _ _ o p os' cur g St Ho Si Ag) as (y & tab1 & p1 & E & St1 & Si1 & Ag1). rewrite E. cbn [rbind fst snd].
    destruct (IH os' tab1 y p1 (gas_step g o) St1 F' Si1 Ag1) as (xs & tab2 & E2 & St2 & M1 & M2 & M3 & M4).
    rewrite E2. cbn [rbind fst snd]. eexists _, _. split; [reflexivity|]. split; auto. cbn [map gas_sections l_sect l_text l_num l_type].
    repeat split; f_equal; auto. apply Ag1.
Qed.
(** The first statement only opens the file: it is taken to be in .text. *)
Lemma init_ok a x ls os tab : standard tab ->
  Forall2 (fun y o => says (parse_ctype a (st_text y)) (st_text y) o) ls os -> simple Fresh os ->
  exists xs tab', init_sections a tab (x :: ls) = Ok (xs, tab') /\ standard tab'
    /\ map (fun y => sc_name (l_sect y)) xs = str ".text" :: gas_sections gas_start os
    /\ map l_text xs = map st_text (x :: ls) /\ map l_num xs = map st_num (x :: ls)
    /\ map l_type xs = map (fun y => parse_ctype a (st_text y)) (x :: ls).
Proof.
  intros St F Si. destruct (standard_find tab (str ".text") St) as (t & Ft & Nt); [simpl; auto|].
  unfold init_sections. rewrite Ft.
  destruct (sections_ok a ls os tab t Fresh gas_start St F Si) as (xs & tab' & E & St' & M1 & M2 & M3 & M4); [split; auto|].
  rewrite E. cbn [rbind fst snd]. eexists _, _. split; [reflexivity|]. split; auto. cbn [map l_sect l_text l_num l_type].
  rewrite Nt, M1, M2, M3, M4. repeat split; reflexivity.
Qed.
