(** C45: tokens; C84: lines and statements of an assembler file.  See DESIGN.md. *)
From Coq Require Import String.
From Verif Require Import Base BaseProofs StorageModel TextModel TextSpec TextProofs TextLines TextStmt RbSpec.
Open Scope list_scope.

(** The tokens of a line that is not blank are its pieces: each piece is preceded by
    blanks only, none is empty, glued together with the blanks they are the line, and
    there is no other way to cut the line.  A blank line has one token, which is
    empty. *)
Theorem C45_tokens_are_the_line (s : text) : one_line s -> exists ts l last,
  tokens s = Ok ts
  /\ s = glue l last /\ Forall (fun p => blank (fst p) /\ snd p <> []) l /\ blank last
  /\ pieces asm_delims s l last
  /\ (forall l' last', pieces asm_delims s l' last' -> l' = l /\ last' = last)
  /\ map txt ts = match l with [] => [[]] | _ => map snd l end.
Proof.
  intros O. destruct (tokens_spec s) as (ts & l & last & H1 & H2 & H3 & H4).
  exists ts, l, last. split; [exact H1|].
  destruct (pieces_line _ _ _ _ H2) as (e & He & Hn).
  assert (e = []) as ->.
  { apply ends_one_line; auto. rewrite He in O. apply one_line_app in O. tauto. }
  split; [now rewrite app_nil_r in He|].
  assert (F : Forall (fun p => blank (fst p) /\ snd p <> []) l /\ blank last).
  { clear - H2. induction H2; [auto|]. destruct IHpieces. split; auto. }
  destruct F as (F1 & F2). split; [exact F1|]. split; [exact F2|]. split; [exact H2|]. split.
  - intros l' last' P. destruct (pieces_det _ _ _ H2 _ _ P) as (-> & ->). auto.
  - rewrite H3. destruct (at_end (skip_blanks s)) eqn:E.
    + rewrite (proj1 H4 eq_refl). reflexivity.
    + destruct l; auto. destruct H4 as (_ & H4). discriminate (H4 eq_refl).
Qed.
Print Assumptions C45_tokens_are_the_line.
Example C45_case :
  let s := str "  movl	$5, ""a \"" b""(%rsp) " in
  one_line s /\ match tokens s with
                | Ok ts => map txt ts = map str ["movl"; "$"; "5"; ","; """a \"" b"""; "("; "%rsp"; ")"]%string
                | _ => False
                end.
Proof. split; [unfold one_line; vm_compute; intuition discriminate|vm_compute; reflexivity]. Qed.

(** The tokenizer itself does give an empty token, for a blank line ... *)
Theorem C45_every_token_nonempty_refuted : exists s ts, one_line s /\ tokens s = Ok ts /\ In [] (map txt ts).
Proof.
  exists (str "  "), [kempty]. split; [|split; [vm_compute; reflexivity|now left]].
  unfold one_line; vm_compute; intuition discriminate.
Qed.
Print Assumptions C45_every_token_nonempty_refuted.
(** ... and drops what stands behind a newline, which is why lines must not have one. *)
Theorem C45_newline_loses_text_refuted : exists s ts, tokens s = Ok ts /\ In 98 s /\ ~ In 98 (concat (map txt ts)).
Proof.
  exists [97; 10; 98], [KStr [97] [10; 98]]. split; [vm_compute; reflexivity|]. simpl. intuition discriminate.
Qed.
Print Assumptions C45_newline_loses_text_refuted.

(** ** C84 *)
(** A file whose lines fit the buffer and have no NUL byte is read line by line, the
    ends of lines removed; line 0 is empty. *)
Theorem C84_file_read_line_by_line buf content ls :
  lines_of content ls -> ~ In 0 content -> Forall (fun l => (length l < buf)%nat) ls ->
  exists rs, read_file buf content = Ok ([] :: rs)
    /\ Forall2 (fun l r => exists p, l = r ++ p /\ Forall (fun c => c = 13) p /\ last r 0 <> 13 /\ ~ In 10 r) ls rs.
Proof.
  intros L Z0 F. exists (map trim_crlf ls). split; [now apply read_file_spec|].
  assert (N : Forall (fun l => ~ In 10 l) ls) by (clear - L; induction L; auto).
  clear - N. induction N as [|l ls H N IH]; constructor; auto.
  destruct (trim_crlf_spec l) as (p & E & G). exists p. split; auto. split.
  - rewrite Forall_forall in *. intros c I. destruct (G c I) as [->|]; auto. destruct H. rewrite E. apply in_or_app; auto.
  - split; [|rewrite E in H; intro I; apply H; apply in_or_app; auto].
    clear. unfold trim_crlf. set (m := rev l). clearbody m. induction m as [|c m IH]; [discriminate|].
    cbn [drop_crlf]. destruct ((c =? 10) || (c =? 13)) eqn:Ec; auto.
    cbn [rev]. rewrite last_last. intros ->. discriminate.
Qed.
Print Assumptions C84_file_read_line_by_line.
Example C84_read_case :
  let c := str "a:" ++ [13; 10; 10] ++ str " nop" in
  lines_of c [str "a:" ++ [13]; []; str " nop"] /\ read_file (Z.to_nat 65535) c = Ok [[]; str "a:"; []; str " nop"].
Proof.
  split; [|vm_compute; reflexivity].
  change (lines_of ((str "a:" ++ [13]) ++ 10 :: [] ++ 10 :: str " nop") [str "a:" ++ [13]; []; str " nop"]).
  repeat constructor; vm_compute; intuition discriminate.
Qed.
(** A longer line is cut: the pieces become lines. *)
Theorem C84_long_line_cut_refuted : exists l r1 r2,
  lines_of l [l] /\ ~ In 0 l /\ read_file (Z.to_nat 65535) l = Ok [[]; r1; r2] /\ r1 <> [] /\ r2 <> [].
Proof.
  exists (repeat 97 (Z.to_nat 65536)), (repeat 97 (Z.to_nat 65535)), [97].
  assert (R : forall n c, In c (repeat 97 n) -> c = 97) by (intros n c I; now apply repeat_spec in I).
  assert (N : forall n c, c <> 97 -> ~ In c (repeat 97 n)) by (intros n c I J; apply R in J; auto).
  assert (F : forall n, fgets n (repeat 97 (Datatypes.S n)) = (repeat 97 n, [97])).
  { induction n as [|n IH]; [reflexivity|]. cbn [repeat fgets Z.eqb Pos.eqb]. cbn [repeat] in IH. rewrite IH. reflexivity. }
  assert (T : forall n, trim_crlf (repeat 97 (Datatypes.S n)) = repeat 97 (Datatypes.S n)).
  { intros n. assert (repeat 97 (Datatypes.S n) = repeat 97 n ++ [97]) as ->.
    { clear. induction n as [|n IH]; [reflexivity|]. cbn [repeat app]. f_equal. exact IH. }
    apply trim_crlf_last; lia. }
  replace (Z.to_nat 65536) with (Datatypes.S (Z.to_nat 65535)) by (rewrite <- Z2Nat.inj_succ; auto; lia).
  set (n := Z.to_nat 65535). assert (Hn : exists m, n = Datatypes.S m) by (exists (Z.to_nat 65534); unfold n; rewrite <- Z2Nat.inj_succ; auto; lia).
  clearbody n. destruct Hn as (m & ->).
  repeat split; try (apply N; lia); try discriminate.
  - constructor; [discriminate|apply N; lia].
  - unfold read_file. rewrite repeat_length. cbn [fgets_all].
    destruct (repeat 97 (Datatypes.S (Datatypes.S m))) as [|c s] eqn:E; [discriminate|]. rewrite <- E.
    rewrite F. cbn [fgets_all]. rewrite upto_nul_none by (apply N; lia). rewrite T.
    destruct m as [|m]; reflexivity.
Qed.
Print Assumptions C84_long_line_cut_refuted.

(** Whatever is in the file, no line read has a newline in it. *)
Theorem C84_lines_have_no_newline buf content ls : read_file buf content = Ok ls -> Forall one_line ls.
Proof. apply read_file_lines. Qed.
Print Assumptions C84_lines_have_no_newline.

(** Cutting a line into statements: nothing but the semicolons between statements and
    blanks after them is dropped; a piece without comment sign is one statement, with a
    label on its own; a comment sign is a token. *)
Theorem C84_statements_keep_the_line a (s : text) : one_line s -> exists ps,
  split_line a s = Ok ps /\ split_of s (map fst ps)
  /\ Forall (fun p => (one_statement p /\ (~ In 58 s \/ label_alone p))
                      \/ has_comment (if pa_slash a then [str "#"; str "//"] else [str "#"]) p) (map fst ps).
Proof.
  intros O. destruct (split_line_spec a s O) as (ps & H1 & H2). exists ps. split; [auto|]. split; [auto|].
  assert (Sg : @eq (list (list Z)) (signs a) (if pa_slash a then [str "#"; str "//"] else [str "#"])) by (unfold signs; destruct (pa_slash a); reflexivity).
  rewrite <- Sg. unfold split_line in H1.
  destruct (existsb (fun c => (c =? 59) || (c =? 58)) s) eqn:E.
  - destruct (statements a (Datatypes.S (length s)) (Some s)) as [r| | |] eqn:Er; try discriminate.
    cbn [rbind] in H1. pose proof (statements_one a (Datatypes.S (length s)) s r (le_n _) Er) as A1.
    pose proof (statements_label a _ s r O Er) as A2.
    assert (A : Forall (fun p => (one_statement p /\ (~ In 58 s \/ label_alone p)) \/ has_comment (signs a) p) (map fst r)).
    { rewrite Forall_map. rewrite Forall_forall in *. intros x I. specialize (A1 x I). specialize (A2 x I).
      cbn in A1, A2. destruct (snd x); auto. }
    injection H1 as <-. rewrite first_owned. exact A.
  - injection H1 as <-. cbn [map fst]. constructor; [|constructor]. left.
    assert (N : ~ In 59 s /\ ~ In 58 s).
    { split; intro I; assert (X : existsb (fun c => (c =? 59) || (c =? 58)) s = true)
        by (apply existsb_exists; eexists; split; [exact I|reflexivity]); congruence. }
    split; [|tauto]. destruct (pieces_exist s) as (l & last & P). exists l, last. split; auto.
    intros I. destruct N as (N & _). apply N. destruct (pieces_line _ _ _ _ P) as (e & -> & _).
    apply in_or_app; left. clear - I. induction l as [|[g t] l IH]; [destruct I|].
    cbn in I |- *. rewrite !in_app_iff. destruct I as [->|I]; [cbn; auto|auto].
Qed.
Print Assumptions C84_statements_keep_the_line.
Example C84_statements_case :
  let s := str "1: lock; cmpxchg %rax, (%rdi); .string ""a;b:c""" in
  one_line s /\ split_line px86 s
    = Ok (map (fun z => (str z, true)) ["1:"; " lock"; "cmpxchg %rax, (%rdi)"; ".string ""a;b:c"""]%string).
Proof. split; [unfold one_line; vm_compute; intuition discriminate|vm_compute; reflexivity]. Qed.

(** A comment sign counts only as a token of its own: in a comment beginning with a word
    the semicolon still ends a statement, and the rest of the comment becomes code. *)
Theorem C84_comment_is_kept_whole_refuted : exists s ps,
  one_line s /\ hd 0 s = 35 /\ split_line px86 s = Ok ps /\ In (str "then leave") (map fst ps).
Proof.
  exists (str "#first; then leave"), [(str "#first", true); (str "then leave", true)].
  split; [unfold one_line; vm_compute; intuition discriminate|].
  split; [reflexivity|]. split; [vm_compute; reflexivity|]. vm_compute; auto.
Qed.
Print Assumptions C84_comment_is_kept_whole_refuted.

(** The names of symbols and sections are ordered by kpstrcmp, so that the trees of
    renames and of blocks by name are maps (C27). *)
Theorem C27_kpstrcmp_orders : orders kpstrcmp (fun _ => True).
Proof.
  assert (A : forall a b : text, kpstrcmp a b = 0 <-> a = b).
  { intros a b. rewrite <- same_spec. unfold same. rewrite Z.eqb_eq. reflexivity. }
  assert (C : forall x y a b, kpstrcmp (x :: a) (y :: b) = if x =? y then kpstrcmp a b else x - y) by (intros; apply kpstrcmp_cons).
  assert (N1 : forall x a, kpstrcmp (x :: a) [] = 1) by (intros; reflexivity).
  assert (N2 : forall x a, kpstrcmp [] (x :: a) = -1) by (intros; reflexivity).
  constructor.
  - intros a b _ _. apply A.
  - intros a b _ _. revert b. induction a as [|x a IH]; intros [|y b]; rewrite ?C, ?N1, ?N2.
    + change (kpstrcmp [] []) with 0. lia.
    + lia.
    + lia.
    + rewrite (Z.eqb_sym y x). destruct (Z.eqb_spec x y); [apply IH|lia].
  - intros a b c _ _ _. revert b c. induction a as [|x a IH]; intros [|y b] [|z c]; rewrite ?C, ?N1, ?N2; try lia;
      try (change (kpstrcmp [] []) with 0; lia).
    destruct (Z.eqb_spec x y), (Z.eqb_spec y z), (Z.eqb_spec x z); subst; try lia; try congruence. eauto.
Qed.
Print Assumptions C27_kpstrcmp_orders.
