(** Writing the generated file. *)
From Coq Require Import String DecimalString Sorted.
From Verif Require Import Base BaseProofs StorageModel CliModel TextModel TextSpec TextProofs ParseModel ParseSpec ParseProofs RenameModel RenameSpec
  RenameProofs CmpModel DbgModel DbgProofs GenModel GenSpec GenFrame GenOther GenOut.
Open Scope list_scope.

(** ** Lines *)
Lemma c_string_upto d : c_string d (upto_nul d).
Proof.
  unfold c_string. induction d as [|c d (N & H)]; cbn [upto_nul]; [split; auto; intros []|].
  destruct (c =? 0) eqn:C.
  - apply Z.eqb_eq in C. subst. split; [intros []|]. right. exists d. reflexivity.
  - apply Z.eqb_neq in C. split; [intros [E|I]; auto|]. destruct H as [H|(r & H)]; [left; now f_equal|right].
    exists r. rewrite H at 1. reflexivity.
Qed.
Lemma called_renamed r n : called (rename_find r) n (renamed r n).
Proof. unfold called, renamed. destruct (rename_find r n) as [d|] eqn:E; [right; exists d; split; auto using c_string_upto|left; auto]. Qed.
Lemma retold_rename r s s' : one_line s -> str_do_rename r s = Ok s' -> retold (rename_find r) s s'.
Proof.
  intros O H. destruct (toks_exist s) as (ts & T). rewrite <- has_tokens_toks in T. destruct T as (l & last & P & _).
  rewrite (str_do_rename_spec r s l last O P) in H. injection H as <-.
  exists l, last, (map (fun p => (fst p, rn r (snd p))) l). split; auto. split.
  - clear. induction l as [|p l IH]; constructor; auto. cbn [fst snd]. split; auto. apply called_renamed.
  - destruct l as [|p l]; [right|left; split; [discriminate|reflexivity]]. split; auto.
    exists (renamed r []). split; [apply called_renamed|reflexivity].
Qed.
Lemma separator_after s num nx e : separator s num nx = Ok e -> after_line s num nx e.
Proof.
  intros H. destruct (separator_spec s num nx) as [(e' & E & D)|(E & _)]; [|congruence].
  rewrite E in H. injection H as ->. unfold after_line.
  destruct D as [(A & B)|[(A & B & C)|(A & B & C)]]; [left; auto|right; left|right; right]; (split; [lia|]); auto.
Qed.
Definition tell (ren : option rtab) (got : bool) : text -> text -> Prop :=
  match ren with Some r => told (rename_find r) got | None => eq end.
Lemma line_text_spec ren got x nx t : one_line (l_text x) -> (ren = None -> got = false) -> line_text ren got x nx = Ok t ->
  exists s e, t = s ++ e /\ tell ren got (l_text x) s /\ after_line s (l_num x) nx e.
Proof.
  unfold line_text. intros O G H. bind H as s1 E1. bind H as s2 E2. bind H as e E3. injection H as <-. exists s2, e. split; auto.
  split; [|now apply separator_after]. unfold tell. destruct ren as [r|].
  - exists s1. split; [now apply retold_rename|]. destruct got; [exact E2|congruence].
  - rewrite (G eq_refl) in E2. congruence.
Qed.
Definition lines_ok (f : gfile) : Prop := Forall (fun x => one_line (l_text x)) (g_lines f).
Lemma skipn_cons {A} (l : list A) : forall i x r, skipn i l = x :: r -> nth_error l i = Some x /\ skipn (S i) l = r.
Proof.
  induction l as [|y l IH]; intros [|i] x r H; try discriminate H.
  - cbn in H. injection H as -> ->. auto.
  - cbn [skipn nth_error] in *. now apply IH.
Qed.
Lemma num_at_number f i r tl : skipn i (g_lines f) = r ++ tl -> num_at f i = number_of r (number_of tl 0).
Proof.
  intros H. unfold num_at, number_of. destruct (r ++ tl) as [|y q] eqn:E.
  - apply app_eq_nil in E as (-> & ->). destruct (nth_error _ _) eqn:N; auto.
    assert (length (skipn i (g_lines f)) = 0%nat) by now rewrite H. rewrite skipn_length in H0.
    assert (i < length (g_lines f))%nat by (apply nth_error_Some; congruence). lia.
  - apply skipn_cons in H as (-> & _). destruct r as [|z r]; cbn in E; [rewrite E; reflexivity|now injection E as -> _].
Qed.
Lemma write_lines_printed ren f : lines_ok f -> forall ls i tl t, skipn i (g_lines f) = ls ++ tl ->
  write_lines ren false f i ls = Ok t -> printed (tell ren false) (number_of tl 0) ls t.
Proof.
  intros L. induction ls as [|x r IH]; intros i tl t K H; cbn [write_lines] in H; [injection H as <-; constructor|].
  bind H as t1 E1. bind H as t2 E2. injection H as <-. destruct (skipn_cons _ _ _ _ K) as (N & K').
  apply line_text_spec in E1; auto; [|eapply Forall_forall in L; [exact L|]; eapply nth_error_In; eauto].
  destruct E1 as (s & e & -> & T & A). rewrite <- app_assoc. constructor; auto; [|eapply IH; eauto].
  now rewrite <- (num_at_number f (S i) r tl K').
Qed.
Lemma blines_skipn f b : (b_start b <= b_end b)%nat -> skipn (b_start b) (g_lines f) = blines f b ++ skipn (b_end b) (g_lines f).
Proof.
  intros H. unfold blines. rewrite <- (firstn_skipn (b_end b - b_start b) (skipn (b_start b) (g_lines f))) at 1. f_equal.
  assert (X : forall (l : list line) m n, skipn m (skipn n l) = skipn (n + m) l).
  { induction l as [|y l IH]; intros m [|n]; cbn; auto using skipn_nil. }
  rewrite X. f_equal. lia.
Qed.
Lemma follower_number f b : follower f b = number_of (skipn (b_end b) (g_lines f)) 0.
Proof.
  exact (num_at_number f (b_end b) [] (skipn (b_end b) (g_lines f)) eq_refl).
Qed.
Lemma cblock_text_printed ren f b t : lines_ok f -> (b_start b <= b_end b)%nat -> cblock_text ren f b = Ok t ->
  printed (tell ren false) (follower f b) (blines f b) t.
Proof.
  intros L B H. rewrite follower_number. eapply write_lines_printed; eauto. now apply blines_skipn.
Qed.

(** ** Emitting code *)
Record emits (st st' : gst) (t : text) : Prop := {
  em_0 : s_0 st' = s_0 st; em_1 : s_1 st' = s_1 st; em_n : s_nsyms st' = s_nsyms st; em_out : s_out st' = s_out st ++ t }.
Lemma emits_refl st : emits st st [].
Proof. split; auto. now rewrite app_nil_r. Qed.
Lemma emits_trans a b c t u : emits a b t -> emits b c u -> emits a c (t ++ u).
Proof. intros [] []. split; try congruence. rewrite app_assoc. congruence. Qed.
Lemma emits_emit t st : emits st (emit t st) t.
Proof. split; auto. Qed.
Lemma change_section_spec o push s st : exists p, emits st (change_section o push s st) p
  /\ goes_to o (if push then ".push" else ".") s p.
Proof.
  unfold change_section, goes_to. destruct (sc_out s) as [n|].
  - eexists. split; [apply emits_emit|]. unfold line_of, lf, tab. destruct push; reflexivity.
  - destruct (sc_exec s).
    + eexists. split; [apply emits_emit|]. left. split; auto. unfold line_of, lf, tab. destruct push; reflexivity.
    + destruct (s_data st).
      * eexists. split; [apply emits_emit|]. right. split; auto. exists []. rewrite app_nil_r. split; [|now left].
        unfold line_of, lf, tab. destruct push; reflexivity.
      * eexists. split.
        -- eapply emits_trans; [apply emits_emit|]. split; cbn [emit with_data s_0 s_1 s_nsyms s_out]; reflexivity.
        -- right. split; auto. exists (line_of ".p2align" (9 :: go_shift o)). split; [|right; now left].
           f_equal. unfold line_of, lf, tab. destruct push; reflexivity.
Qed.
Lemma add_comm_spec o r s st st' : add_comm_cmd o (Some r) s st = Ok st' -> exists p, emits st st' p /\ placed o (rename_find r) s p.
Proof.
  unfold add_comm_cmd. intros H. bind H as x Ex. destruct x as [[n sz] al]. injection H as <-.
  destruct (change_section_spec o true data_sect st) as (h & Eh & Gh).
  eexists. split.
  - eapply emits_trans; [|apply emits_emit]. instantiate (1 := _ ++ (if sz =? 0 then [] else line_of ".zero" (9 :: str (NilZero.string_of_int (Z.to_int sz))))).
    destruct (sz =? 0).
    + rewrite app_nil_r. instantiate (1 := _ ++ label_of (renamed r n)).
      eapply emits_trans; [|apply emits_emit].
      instantiate (1 := h ++ (if al =? 0 then [] else line_of ".align" (9 :: str (NilZero.string_of_int (Z.to_int al))))).
      destruct (al =? 0); [rewrite app_nil_r; exact Eh|]. eapply emits_trans; [exact Eh|apply emits_emit].
    + eapply emits_trans; [|apply emits_emit].
      eapply emits_trans; [|apply emits_emit].
      destruct (al =? 0); [rewrite app_nil_r; exact Eh|]. eapply emits_trans; [exact Eh|apply emits_emit].
  - exists n, (renamed r n), sz, al, h. split; auto. split; [apply called_renamed|]. split; [exact Gh|].
    rewrite <- !app_assoc. reflexivity.
Qed.
Lemma moves_section_spec d : gen_changes_section d = true <-> moves_section d.
Proof.
  unfold gen_changes_section, moves_section. destruct d; cbn [In]; split; intros H; try reflexivity; try discriminate H; auto 9;
    repeat (destruct H as [H|H]; [discriminate H|]); destruct H.
Qed.
Lemma dir_beq_comm d : dir_beq d DComm = true <-> d = DComm.
Proof. destruct d; split; intros H; try reflexivity; discriminate H. Qed.
Lemma gen_lines_spec o got f : lines_ok f -> forall ls first i tl st st', skipn i (g_lines f) = ls ++ tl ->
  gen_lines o got f first i ls st = Ok st' ->
  exists t, emits st st' t /\ rewritten o (rename_find (g_ren f)) got (number_of tl 0) first ls t.
Proof.
  intros L. induction ls as [|x r IH]; intros first i tl st st' K H; cbn [gen_lines] in H.
  - injection H as <-. exists []. split; [apply emits_refl|constructor].
  - bind H as st1 E1. destruct (skipn_cons _ _ _ _ K) as (N & K'). destruct (IH _ _ _ _ _ K' H) as (t & Et & Rt).
    destruct (gen_changes_section (l_type x)) eqn:G.
    + apply moves_section_spec in G. injection E1 as <-. destruct first.
      * exists t. split; auto. now constructor.
      * destruct (change_section_spec o false (l_sect x) st) as (p & Ep & Gp). exists (p ++ t).
        split; [eapply emits_trans; eauto|]. now apply rw_sect.
    + destruct (dir_beq (l_type x) DComm) eqn:C.
      * apply dir_beq_comm in C. apply add_comm_spec in E1 as (p & Ep & Pp). exists (p ++ t).
        split; [eapply emits_trans; eauto|]. now apply rw_comm.
      * bind E1 as tx Ex. injection E1 as <-. apply line_text_spec in Ex; [|eapply Forall_forall in L; [exact L|]; eapply nth_error_In; eauto|discriminate].
        destruct Ex as (s & e & -> & T & A). exists (s ++ e ++ t). split.
        -- rewrite app_assoc. eapply emits_trans; [apply emits_emit|exact Et].
        -- apply rw_line; auto.
           ++ intros M. apply moves_section_spec in M. congruence.
           ++ intros M. apply dir_beq_comm in M. congruence.
           ++ now rewrite <- (num_at_number f (S i) r tl K').
Qed.

(** ** States that differ in what is handled only *)
Definition unh (b : cblock) := (core b, b_ignore b, b_unlink b, b_pair b).
Record fsame (f g : gfile) : Prop := {
  fs_blocks : map unh (g_blocks g) = map unh (g_blocks f); fs_lines : g_lines g = g_lines f; fs_ren : g_ren g = g_ren f }.
Lemma fsame_refl f : fsame f f.
Proof. split; auto. Qed.
Lemma fsame_trans f g h : fsame f g -> fsame g h -> fsame f h.
Proof. intros [] []. split; congruence. Qed.
Lemma fsame_sym f g : fsame f g -> fsame g f.
Proof. intros []. split; congruence. Qed.
Lemma unh_fields b c : unh b = unh c -> alike b c /\ b_ignore b = b_ignore c /\ b_unlink b = b_unlink c /\ b_pair b = b_pair c.
Proof. unfold unh. intros H. apply pair_equal_spec in H as (H & E1). apply pair_equal_spec in H as (H & E2). apply pair_equal_spec in H as (H & E3). auto. Qed.
Lemma fsame_in f g b : fsame f g -> In b (g_blocks g) -> exists c, In c (g_blocks f) /\ unh c = unh b.
Proof.
  intros [H _ _] I. apply (in_map unh) in I. rewrite H in I. apply in_map_iff in I as (c & E & I). eauto.
Qed.
Lemma map_starts (l l' : list cblock) : map unh l = map unh l' -> map b_start l = map b_start l'.
Proof.
  revert l'. induction l as [|b l IH]; intros [|c l'] H; try discriminate H; auto. cbn [map] in *. injection H as H1 H2.
  f_equal; auto.
Qed.
Lemma fsame_starts f g : fsame f g -> starts_of g = starts_of f.
Proof. intros [H _ _]. now apply map_starts. Qed.
Lemma fsame_handled f s : fsame f (updb s set_handled f).
Proof.
  split; auto. cbn [updb with_blocks g_blocks]. rewrite map_map. apply map_ext. intros b. destruct (Nat.eqb _ _); reflexivity.
Qed.
Definition wsame (st st' : gst) : Prop := fsame (s_0 st) (s_0 st') /\ fsame (s_1 st) (s_1 st').
Lemma wsame_refl st : wsame st st.
Proof. split; apply fsame_refl. Qed.
Lemma wsame_trans a b c : wsame a b -> wsame b c -> wsame a c.
Proof. intros [] []. split; eapply fsame_trans; eauto. Qed.
Lemma wsame_sym a b : wsame a b -> wsame b a.
Proof. intros []. split; now apply fsame_sym. Qed.
Lemma wsame_emits st st' t : emits st st' t -> wsame st st'.
Proof. intros [E0 E1 _ _]. split; [rewrite E0|rewrite E1]; apply fsame_refl. Qed.
Lemma wsame_upd0 s st : wsame st (upd0 s set_handled st).
Proof. split; [apply fsame_handled|apply fsame_refl]. Qed.
Lemma wsame_upd1 s st : wsame st (upd1 s set_handled st).
Proof. split; [apply fsame_refl|apply fsame_handled]. Qed.
Lemma wsame_joined st st' b0 b1 : wsame st st' -> joined st b0 b1 -> exists c0 c1, joined st' c0 c1 /\ unh c0 = unh b0 /\ unh c1 = unh b1.
Proof.
  intros (W0 & W1) (I0 & I1 & E). apply fsame_sym in W0, W1.
  destruct (fsame_in _ _ _ W0 I0) as (c0 & J0 & U0), (fsame_in _ _ _ W1 I1) as (c1 & J1 & U1). exists c0, c1.
  split; auto. split; auto. split; auto. apply unh_fields in U0 as (_ & _ & _ & P), U1 as (A & _). apply alike_fields in A as (S & _). congruence.
Qed.
Lemma wsame_wf st st' : wf st -> wsame st st' -> wf st'.
Proof. intros [W0 W1] (S0 & S1). split; [rewrite (fsame_starts _ _ S0)|rewrite (fsame_starts _ _ S1)]; auto. Qed.
Lemma wsame_joined_at st st' b0 c0 b1 : wf st -> wsame st st' -> In c0 (g_blocks (s_0 st')) -> unh c0 = unh b0 -> joined st b0 b1 ->
  exists c1, joined st' c0 c1 /\ unh c1 = unh b1.
Proof.
  intros W H I U J. destruct (wsame_joined _ _ _ _ H J) as (d0 & c1 & (K0 & K1 & E) & U0 & U1). exists c1. split; auto.
  replace c0 with d0; [now split|]. apply (nodup_start (g_blocks (s_0 st'))); auto; [apply (wsame_wf _ _ W H)|].
  rewrite <- U in U0. now apply unh_fields in U0 as ((A & _)%alike_fields & _).
Qed.

(** Relations that do not see what is handled *)
Lemma function_of_same o f g m b c orig n p : g_lines g = g_lines f -> unh b = unh c ->
  function_of o f m b orig n p -> function_of o g m c orig n p.
Proof.
  intros L U. apply unh_fields in U as (A & _). apply alike_fields in A as (S & E & N & _ & _ & T & _).
  unfold function_of, replaced, blines, follower. now rewrite S, E, N, T, L.
Qed.
Lemma original_part_same o st st' b0 c0 n n' p : wf st -> wsame st st' -> In b0 (g_blocks (s_0 st)) -> In c0 (g_blocks (s_0 st')) ->
  unh c0 = unh b0 -> original_part o st b0 n n' p -> original_part o st' c0 n n' p.
Proof.
  intros W H I0 J0 U. unfold original_part.
  assert (X : forall b1, joined st b0 b1 -> exists c1, joined st' c0 c1 /\ unh c1 = unh b1) by (intros b1; eapply wsame_joined_at; eauto).
  assert (Y : forall c1, joined st' c0 c1 -> exists b1, joined st b0 b1 /\ unh b1 = unh c1).
  { intros c1. eapply wsame_joined_at; eauto using wsame_wf, wsame_sym. }
  destruct (unh_fields _ _ U) as (A & _). destruct (alike_fields _ _ A) as (S & E & N & _ & _ & T & Gl & _).
  assert (G : has_globl o st b0 <-> has_globl o st' c0).
  { unfold has_globl. rewrite T, Gl. split; (intros [Q|(Q & b1 & J & B)]; [now left|right; split; auto]).
    - destruct (X _ J) as (c1 & J' & U1). exists c1. split; auto. apply unh_fields in U1 as ((_ & _ & _ & _ & _ & _ & Q1 & _)%alike_fields & _). congruence.
    - destruct (Y _ J) as (c1 & J' & U1). exists c1. split; auto. apply unh_fields in U1 as ((_ & _ & _ & _ & _ & _ & Q1 & _)%alike_fields & _). congruence. }
  assert (Bl : blines (s_0 st') c0 = blines (s_0 st) b0 /\ follower (s_0 st') c0 = follower (s_0 st) b0).
  { destruct H as ([_ L _] & _). unfold blines, follower. now rewrite S, E, L. }
  destruct Bl as (Bl & Fo). rewrite T, N, Bl, Fo.
  assert (Q : forall q, (exists b1 c, b_type b0 = BFunc /\ joined st b0 b1 /\ b_ignore b1 = false /\ b_unlink b1 = false
               /\ function_of o (s_1 st) (rename_find (g_ren (s_1 st))) b1 (Some (txt (b_name b0))) n c /\ n' = n + 1
               /\ q = line_of ".text" [] ++ label_of (txt (b_name b0) ++ str ".Lfe") ++ remark "kpatch begin ---------"
                      ++ c ++ remark "kpatch end -----------")
            \/ (~ (b_type b0 = BFunc /\ exists b1, joined st b0 b1 /\ b_ignore b1 = false /\ b_unlink b1 = false)
                /\ n' = n /\ q = []) -> 
            (exists b1 c, b_type b0 = BFunc /\ joined st' c0 b1 /\ b_ignore b1 = false /\ b_unlink b1 = false
               /\ function_of o (s_1 st') (rename_find (g_ren (s_1 st'))) b1 (Some (txt (b_name b0))) n c /\ n' = n + 1
               /\ q = line_of ".text" [] ++ label_of (txt (b_name b0) ++ str ".Lfe") ++ remark "kpatch begin ---------"
                      ++ c ++ remark "kpatch end -----------")
            \/ (~ (b_type b0 = BFunc /\ exists b1, joined st' c0 b1 /\ b_ignore b1 = false /\ b_unlink b1 = false)
                /\ n' = n /\ q = [])).
  { intros q [(b1 & c & F & J & Ig & Un & Fn & K)|(K & K')]; [left|right].
    - destruct (X _ J) as (c1 & J' & U1). exists c1, c. destruct (unh_fields _ _ U1) as (_ & Ig' & Un' & _).
      split; auto. split; auto. split; [congruence|]. split; [congruence|]. split; auto.
      destruct H as (_ & H1). rewrite (fs_ren _ _ H1). eapply function_of_same; [apply H1|symmetry; exact U1|exact Fn].
    - split; auto. intros (F & c1 & J & Ig & Un). apply K. split; auto. destruct (Y _ J) as (b1 & J' & U1). exists b1.
      destruct (unh_fields _ _ U1) as (_ & Ig' & Un' & _). split; auto. split; congruence. }
  destruct (b_type b0) eqn:Ty; auto; intros (g & t & q & Ep & Gg & Pt & Qq); exists g, t, q; (split; [auto|]); rewrite <- G; auto.
Qed.
Lemma new_part_same o st st' b1 c1 n n' p : wsame st st' -> unh c1 = unh b1 -> new_part o st b1 n n' p -> new_part o st' c1 n n' p.
Proof.
  intros (_ & H1) U. unfold new_part. destruct (unh_fields _ _ U) as (A & _ & _ & P).
  assert (T : b_type c1 = b_type b1) by now apply alike_fields in A.
  rewrite P, T. destruct (b_pair b1); auto. destruct (b_type b1) eqn:Ty; auto.
  - intros (c & F & K). exists c. split; auto. rewrite (fs_ren _ _ H1). eapply function_of_same; [apply H1|symmetry; exact U|exact F].
  - intros (K & R). split; auto. rewrite (fs_ren _ _ H1). revert R. unfold replaced, blines, follower.
    apply alike_fields in A as (S & E & N & _). rewrite S, E, N, Ty, T. now rewrite (fs_lines _ _ H1).
Qed.
Lemma unlinked_part_same o st st' m b1 c1 n n' p : g_lines (s_1 st') = g_lines (s_1 st) -> unh c1 = unh b1 ->
  unlinked_part o st m b1 n n' p -> unlinked_part o st' m c1 n n' p.
Proof.
  intros H1 U. unfold unlinked_part. destruct (unh_fields _ _ U) as (A & _ & Un & P).
  assert (T : b_type c1 = b_type b1) by now apply alike_fields in A.
  rewrite Un, T. destruct (b_unlink b1); auto. destruct (b_type b1) eqn:Ty; auto.
  intros (c & F & K). exists c. split; auto. eapply function_of_same; [exact H1|symmetry; exact U|exact F].
Qed.

(** ** Loops *)
Lemma parts_app P bs cs n n1 n2 p q : parts P bs n n1 p -> parts P cs n1 n2 q -> parts P (bs ++ cs) n n2 (p ++ q).
Proof. intros H. revert cs n2 q. induction H; cbn [app]; intros; auto. rewrite <- app_assoc. econstructor; eauto. Qed.
Lemma rfold_parts (side : gst -> gfile) (g : cblock -> gst -> res gst) (P : cblock -> Z -> Z -> text -> Prop) st :
  NoDup (starts_of (side st)) ->
  (forall s, wsame st s -> fsame (side st) (side s)) ->
  (forall b s s' b', wsame st s -> In b (g_blocks (side s)) -> In b' (g_blocks (side st)) -> unh b = unh b' -> g b s = Ok s' ->
     wsame s s' /\ exists t, s_out s' = s_out s ++ t /\ P b' (s_nsyms s) (s_nsyms s') t) ->
  forall bs s s', (exists cs, g_blocks (side st) = cs ++ bs) -> wsame st s ->
    rfold (fun k s => match getb (side s) k with Some b => g b s | None => Ok s end) (map b_start bs) s = Ok s' ->
    wsame s s' /\ exists t, s_out s' = s_out s ++ t /\ parts P bs (s_nsyms s) (s_nsyms s') t.
Proof.
  intros N F H. induction bs as [|b bs IH]; intros s s' (cs & Eb) W R; cbn [map rfold] in R.
  - injection R as <-. split; [apply wsame_refl|]. exists []. split; [now rewrite app_nil_r|constructor].
  - bind R as s1 E1. assert (I : In b (g_blocks (side st))) by (rewrite Eb; apply in_or_app; right; now left).
    destruct (fsame_in _ _ _ (fsame_sym _ _ (F s W)) I) as (b' & I' & U).
    assert (G : getb (side s) (b_start b) = Some b').
    { replace (b_start b) with (b_start b') by (now apply unh_fields in U as ((Q & _)%alike_fields & _)).
      apply getb_of; auto. now rewrite (fsame_starts _ _ (F s W)). }
    rewrite G in E1. destruct (H _ _ _ _ W I' I U E1) as (W1 & t1 & O1 & P1).
    destruct (IH s1 s') as (W2 & t2 & O2 & P2); auto.
    + exists (cs ++ [b]). now rewrite <- app_assoc.
    + eapply wsame_trans; eauto.
    + split; [eapply wsame_trans; eauto|]. exists (t1 ++ t2). split; [rewrite O2, O1; now rewrite app_assoc|]. econstructor; eauto.
Qed.
Lemma each0_parts g P st st' : wf st ->
  (forall b s s' b', wsame st s -> In b (g_blocks (s_0 s)) -> In b' (g_blocks (s_0 st)) -> unh b = unh b' -> g b s = Ok s' ->
     wsame s s' /\ exists t, s_out s' = s_out s ++ t /\ P b' (s_nsyms s) (s_nsyms s') t) ->
  each0 g st = Ok st' -> wsame st st' /\ exists t, s_out st' = s_out st ++ t /\ parts P (g_blocks (s_0 st)) (s_nsyms st) (s_nsyms st') t.
Proof.
  intros W H E. apply (rfold_parts s_0 g P st); auto using wsame_refl; [apply W|intros s K; apply K|now exists []].
Qed.
Lemma each1_parts g P st st' : wf st ->
  (forall b s s' b', wsame st s -> In b (g_blocks (s_1 s)) -> In b' (g_blocks (s_1 st)) -> unh b = unh b' -> g b s = Ok s' ->
     wsame s s' /\ exists t, s_out s' = s_out s ++ t /\ P b' (s_nsyms s) (s_nsyms s') t) ->
  each1 g st = Ok st' -> wsame st st' /\ exists t, s_out st' = s_out st ++ t /\ parts P (g_blocks (s_1 st)) (s_nsyms st) (s_nsyms st') t.
Proof.
  intros W H E. apply (rfold_parts s_1 g P st); auto using wsame_refl; [apply W|intros s K; apply K|now exists []].
Qed.
