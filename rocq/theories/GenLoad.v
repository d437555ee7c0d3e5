(** The two files before the analysis. *)
From Coq Require Import String Sorted.
From Verif Require Import Base BaseProofs StorageModel TextModel TextSpec TextProofs TextLines TextStmt TextProperties ParseModel ParseSpec
  ParseProofs RenameModel RenameSpec RenameProofs CmpModel CmpSpec CmpProofs DbgModel DbgProofs GenModel GenSpec GenFrame GenSteps GenOther.
Open Scope list_scope.

(** ** Lines *)
Lemma split_one_line s ps : split_of s ps -> one_line s -> Forall one_line ps.
Proof.
  unfold one_line. induction 1 as [s|p g r ps B H IH|p g B|p r ps N H IH]; intros O.
  - constructor; auto.
  - constructor; [|apply IH]; intros I; apply O; apply in_or_app; [now left|right; right; apply in_or_app; now right].
  - constructor; auto. intros I. apply O. apply in_or_app. now left.
  - constructor; [|apply IH]; intros I; apply O.
    + apply in_app_or in I as [I|[I|[]]]; [apply in_or_app; now left|discriminate].
    + apply in_or_app. right. now right.
Qed.
Lemma multilines_one_line a : forall ls i ms, Forall one_line ls -> multilines_from a i ls = Ok ms -> Forall (fun x => one_line (st_text x)) ms.
Proof.
  induction ls as [|s ls IH]; intros i ms F H; cbn [multilines_from] in H; [injection H as <-; constructor|].
  inversion F; subst. bind H as p Ep. bind H as q Eq. injection H as <-. apply Forall_app. split; [|eapply IH; eauto].
  destruct (C84_statements_keep_the_line a s) as (ps & E & S & _); auto. rewrite E in Ep. injection Ep as <-.
  apply split_one_line in S; auto. clear - S. induction ps as [|x ps IH]; cbn [map] in *; constructor; inversion S; auto.
Qed.
Definition good_line (a : parch) (x : line) : Prop := ~ In 10 (l_text x) /\ l_type x = parse_ctype a (l_text x).
Lemma sections_good a : forall ms tb cur ls tb', Forall (fun x => one_line (st_text x)) ms -> sections_from a tb cur ms = Ok (ls, tb') ->
  Forall (good_line a) ls.
Proof.
  induction ms as [|x ms IH]; intros tb cur ls tb' F H; cbn [sections_from] in H; [injection H as <- <-; constructor|].
  inversion F; subst. bind H as p Ep. bind H as q Eq. injection H as <- <-. constructor; [now split|]. destruct q. eapply IH; eauto.
Qed.
Lemma load_good a buf tb i ms ls tb' : load a buf tb i = Ok (ms, ls, tb') -> Forall (good_line a) ls.
Proof.
  unfold load. intros H. bind H as ts Et. bind H as us Eu. bind H as q Eq. injection H as <- <- <-.
  apply C84_lines_have_no_newline in Et. unfold init_multilines in Eu. apply (multilines_one_line a) in Eu; auto.
  unfold init_sections in Eq. destruct us as [|x us]; [injection Eq as <-; constructor|]. inversion Eu; subst.
  destruct (find_section tb _) as [t|]; [|discriminate]. bind Eq as q' Eq'. injection Eq as <-. cbn [fst].
  constructor; [now split|]. destruct q'. eapply sections_good; eauto.
Qed.

(** ** Names of functions *)
Lemma type_args_named s nm at_ : get_type_args s = Ok (Some (nm, at_)) -> txt (second_token s) <> [].
Proof.
  unfold get_type_args, second_token. destruct (get_token (Some s)) as [t s1]. destruct (negb _); [discriminate|].
  destruct (get_token s1) as [nm' s2] eqn:G1. destruct (get_token s2) as [t2 s3] eqn:G2. destruct (get_token s3) as [at' s4].
  destruct (negb _) eqn:C; [discriminate|]. intros _ E. cbn [fst snd] in E. rewrite G1 in E. cbn [fst] in E.
  destruct s1 as [s1|]; [|injection G1 as <- <-; cbn in G2; injection G2 as <- <-; discriminate].
  destruct s2 as [s2|]; [|injection G2 as <- <-; discriminate].
  unfold get_token, get_token_d in G1. destruct (at_end (skip_blanks s1)) eqn:A; [discriminate|].
  destruct (skip_blanks s1) as [|c r]; [discriminate|]. destruct (c =? 34).
  - destruct (quoted r). injection G1 as <- _. discriminate.
  - destruct (undelimited delims (c :: r)) as [[|d p] e]; injection G1 as <- _; discriminate.
Qed.
Lemma type_directive : forall x, In x directives -> snd x = DType -> fst x = str ".type".
Proof.
  apply (proj1 (Forall_forall (fun x => snd x = DType -> fst x = str ".type") directives)). unfold directives. cbn [map fst snd].
  repeat (apply Forall_cons; [cbn [fst snd]; intros H; try discriminate H; reflexivity|]). constructor.
Qed.
Lemma ctype_type a s : parse_ctype a s = DType -> get_type_args s <> Ok None.
Proof.
  unfold parse_ctype, get_type_args. intros H. destruct (_ || _); [discriminate|]. rewrite skip_token in H.
  destruct (get_token (Some s)) as [t e].
  assert (E : txt t = str ".type").
  { destruct (find_ctype (txt t)) as [d|] eqn:F.
    - subst d. unfold find_ctype in F. destruct (find _ directives) as [[k d]|] eqn:Fd; [|discriminate]. apply find_some in Fd as (I & E).
      injection F as F. cbn [fst snd] in *. subst d. apply same_spec in E. rewrite E.
      exact (type_directive (k, DType) I eq_refl).
    - exfalso. revert H. clear. destruct e as [[|c e]|]; try discriminate.
      destruct (Z.eq_dec c 58) as [->|N]; [destruct (txt t) as [|d q]; [discriminate|destruct (is_digit d); discriminate]|].
      destruct c as [|p|p]; try discriminate. repeat (destruct p as [p|p|]; try discriminate). congruence. }
  rewrite E, same_refl. cbn [negb]. destruct (get_token e) as [nm s2]. destruct (get_token s2) as [t2 s3]. destruct (get_token s3).
  destruct (negb _); discriminate.
Qed.
Lemma function_start_named a : forall ls first func nm attr nm', Forall (good_line a) ls -> (func = true -> txt nm <> []) ->
  function_start_from a first func nm attr ls = Ok (true, nm') -> txt nm' <> [].
Proof.
  induction ls as [|x ls IH]; intros first func nm attr nm' F Hn H; cbn [function_start_from] in H.
  - injection H as Hf <-. auto.
  - inversion F as [|? ? (_ & Tx) F']; subst. destruct (negb first && _); [eapply IH; eauto|].
    destruct (_ || dir_beq (l_type x) DAlign); [eapply IH; eauto|]. bind H as ta Et.
    match type of H with (if ?c then _ else _) = _ => destruct c eqn:C end.
    + match type of H with (if ?c then _ else _) = _ => destruct c eqn:C2 end; [injection H as Hf _; discriminate|].
      eapply IH; [exact F'| |exact H]. intros Hf. apply orb_true_iff in Hf as [Hf|Hf].
      * specialize (Hn Hf). destruct (list_eqb (txt nm) []) eqn:E; [apply list_eqb_eq in E; congruence|].
        cbn [negb andb] in C2. destruct (same (txt nm) (txt (second_token (l_text x)))) eqn:S; [|discriminate].
        apply same_spec in S. congruence.
      * apply dir_beq_eq in Hf. rewrite Hf in Tx. symmetry in Tx. apply ctype_type in Tx. destruct ta as [[nm2 at2]|]; [|congruence].
        eapply type_args_named; eauto.
    + destruct (hot_label a x); [eapply IH; eauto|]. injection H as Hf <-. auto.
Qed.

(** ** Blocks as they are made *)
Definition fresh (b : cblock) : Prop :=
  b_pair b = None /\ b_handled b = false /\ b_ignore b = false /\ b_unlink b = false
  /\ (b_type b = BFunc -> txt (b_name b) <> []) /\ (b_type b = BOther -> txt (b_name b) = [] /\ b_auto b = false).
Lemma fresh_new s e nm t g : (t = BFunc -> txt nm <> []) -> (t = BOther -> nm = kempty) -> fresh (new_block s e nm t g).
Proof.
  intros H Ho. unfold fresh. cbn [new_block b_pair b_handled b_ignore b_unlink b_type b_name b_auto].
  do 4 (split; [reflexivity|]). split; [exact H|]. intros T. rewrite (Ho T). split; reflexivity.
Qed.
Lemma cblock_add_fresh bs b bs' : Forall fresh bs -> fresh b -> cblock_add bs b = Ok bs' -> Forall fresh bs'.
Proof. unfold cblock_add. intros F H E. destruct (_ && _); [discriminate|]. injection E as <-. apply Forall_app. auto. Qed.
Lemma one_block_fresh a i bs x r u v bs' : Forall (good_line a) (x :: r) -> Forall fresh bs -> one_block a i bs x r = Ok (u, v, bs') ->
  Forall fresh bs' /\ Forall (good_line a) v.
Proof.
  intros G F H. unfold one_block in H.
  assert (Gr : Forall (good_line a) r) by now inversion G.
  assert (Gs : forall n, Forall (good_line a) (skipn n (x :: r))).
  { intros n. rewrite <- (firstn_skipn n (x :: r)) in G. apply Forall_app in G. apply G. }
  destruct (list_eqb (l_text x) []); [injection H as <- <- <-; auto|].
  bind H as f Ef. destruct f as [fb nm]. destruct fb; cbn [fst snd] in H.
  - bind H as q Eq. destruct q as [[[u' v'] g] ad]. bind H as bs2 Eb. injection H as <- <- <-. split.
    + eapply cblock_add_fresh; [exact F| |exact Eb].
      assert (Fn : fresh (new_block i (i + length u') nm BFunc g)).
      { apply fresh_new; [|discriminate]. intros _. unfold is_function_start in Ef. eapply function_start_named; [exact G| |exact Ef]. discriminate. }
      destruct ad; exact Fn.
    + clear - Eq G. apply func_lines_shape in Eq; [|discriminate]. destruct Eq as (_ & w & E & _). rewrite E in G. apply Forall_app in G. apply G.
  - bind H as w Ew. destruct w as [[[e g] nm2]|].
    + bind H as q Eq. bind H as bs2 Eb. injection H as <- <- <-. split; [|apply Gs].
      eapply cblock_add_fresh; [exact F| |exact Eb]. apply fresh_new; [discriminate|try discriminate; auto].
    + destruct (dir_beq (l_type x) DSet).
      * bind H as bs2 Eb. injection H as <- <- <-. split; auto. eapply cblock_add_fresh; [exact F| |exact Eb]. apply fresh_new; [discriminate|try discriminate; auto].
      * destruct (_ || _).
        -- destruct (find_by_name bs _); [injection H as <- <- <-; auto|]. bind H as bs2 Eb. injection H as <- <- <-. split; auto.
           eapply cblock_add_fresh; [exact F| |exact Eb]. apply fresh_new; [discriminate|try discriminate; auto].
        -- bind H as q Eq. destruct q as [n flag].
           assert (K : (do m <- match flag with EIniarr => until_start a (skipn n (x :: r)) | _ => Ok 0%nat end;
                        do bs' <- cblock_add bs (new_block i (i + n + m) kempty BOther false);
                        Ok (firstn (n + m) (x :: r), skipn (n + m) (x :: r), bs')) = Ok (u, v, bs') -> Forall fresh bs' /\ Forall (good_line a) v).
           { intros K. bind K as m Em. bind K as bs2 Eb. injection K as <- <- <-. split; [|apply Gs].
             eapply cblock_add_fresh; [exact F| |exact Eb]. apply fresh_new; [discriminate|try discriminate; auto]. }
           destruct flag; auto. clear K. destruct (rev bs) as [|b p] eqn:R; [discriminate|]. injection H as <- <- <-. split; [|apply Gs].
           assert (E : bs = rev p ++ [b]) by (rewrite <- (rev_involutive bs), R; reflexivity).
           rewrite E in F. apply Forall_app in F as (F1 & F2). apply Forall_app. split; auto. inversion F2; subst. constructor; auto.
Qed.
Lemma blocks_from_fresh a : forall n i bs ls ls' bs', Forall (good_line a) ls -> Forall fresh bs ->
  blocks_from a n i bs ls = Ok (ls', bs') -> Forall fresh bs'.
Proof.
  induction n as [|n IH]; intros i bs ls ls' bs' G F H; destruct ls as [|x r]; cbn [blocks_from] in H; try discriminate;
    try (injection H as <- <-; auto).
  bind H as q Eq. destruct q as [[u v] bs2]. bind H as w Ew. injection H as <- <-. destruct w as [w1 w2].
  destruct (one_block_fresh a i bs x r u v bs2 G F Eq) as (F2 & G2). eapply IH; eauto.
Qed.
Lemma distinct_names bs : names_distinct bs -> forall b c, In b bs -> In c bs -> name b = name c -> name b <> [] -> b = c.
Proof.
  unfold names_distinct. induction bs as [|x bs IH]; cbn [map filter]; intros N b c Ib Ic E Ne; [destruct Ib|].
  assert (X : forall d, In d bs -> name x = name d -> name x <> [] -> False).
  { intros d Id Ed Nd. assert (Q : list_eqb (txt (b_name x)) [] = false).
    { apply not_true_iff_false. rewrite list_eqb_eq. exact Nd. }
    rewrite Q in N. cbn [negb] in N. inversion N as [|? ? N1 N2]; subst. apply N1. apply filter_In. split; [|now rewrite Q].
    apply in_map_iff. exists d. split; auto. }
  assert (N' : NoDup (filter (fun n => negb (list_eqb n [])) (map (fun b => txt (b_name b)) bs))).
  { destruct (negb _); [now inversion N|exact N]. }
  destruct Ib as [->|Ib], Ic as [->|Ic]; auto.
  - destruct (X c Ic E Ne).
  - destruct (X b Ib (eq_sym E)). congruence.
Qed.

Record ready (a : parch) (f : gfile) : Prop := {
  rd_order : in_order (length (g_lines f)) (g_blocks f);
  rd_names : names f; rd_fresh : Forall fresh (g_blocks f); rd_ren : g_ren f = [] }.
Theorem file_of_ready a buf tb i ms ls tb' f : load a buf tb i = Ok (ms, ls, tb') -> file_of a i ls = Ok f -> ready a f.
Proof.
  intros L H. apply load_good in L. unfold file_of in H. bind H as w Ew. injection H as <-. destruct w as [ls' bs].
  assert (N : Forall (fun x => ~ In 10 (l_text x)) ls) by (eapply Forall_impl; [|exact L]; intros x (A & _); exact A).
  destruct (cblocks_init_spec a ls ls' bs N Ew) as (O & D & K & _). split; cbn [g_lines g_blocks fst snd g_ren]; auto.
  - rewrite <- (kept_length _ _ K). exact O.
  - exact (distinct_names bs D).
  - destruct ls as [|x r]; cbn [cblocks_init] in Ew; [injection Ew as <- <-; constructor|].
    bind Ew as q Eq. injection Ew as <- <-. destruct q as [q1 q2]. eapply blocks_from_fresh; [|constructor|exact Eq]. now inversion L.
Qed.
Lemma ready_func_names a f : ready a f -> func_names f.
Proof. intros [_ _ F _] b I T. rewrite Forall_forall in F. apply (F b I), T. Qed.
Theorem start_inv a f0 f1 : ready a f0 -> ready a f1 -> inv (start f0 f1) /\ no_func (start f0 f1).
Proof.
  intros [O0 N0 F0 R0] [O1 N1 F1 R1]. rewrite Forall_forall in F0, F1. split.
  - split.
    + split; eapply in_order_starts; eauto.
    + intros b1 s0 I E. destruct (F1 b1 I) as (P & _). congruence.
    + intros b0 s1 I E. destruct (F0 b0 I) as (P & _). congruence.
    + intros n d. cbn [start s_0]. rewrite R0. discriminate.
    + intros n d. cbn [start s_1]. rewrite R1. discriminate.
  - intros b I _. apply (F0 b I).
Qed.
