(** C162: the streams of kpatch_gensrc. *)
From Coq Require Import Lia.
From Verif Require Import Base StreamModel StreamProofs.
Open Scope list_scope.

(** If [-] is given at most once for an input and at most once for the output, then
    whatever the options and their order no stream is used or closed after it was
    closed, and if the program comes to its end, each file it opened is closed. *)
Theorem C162_streams_partial : forall dbgfilter operands os,
  (length (filter (fun o => match o with OptI Dash => true | _ => false end) os) <= 1)%nat ->
  (length (filter (fun o => match o with OptO Dash => true | _ => false end) os) <= 1)%nat ->
  gensrc_streams dbgfilter operands os <> Misuse /\
  (forall s, gensrc_streams dbgfilter operands os = Fine s ->
     NoDup (closed s) /\ forall n, (n < opened s)%nat -> In (File n) (closed s)).
Proof.
  intros fi op os HI HO.
  destruct (gensrc_streams_spec fi op os HI HO) as [E|(s & E & N & A)]; rewrite E.
  - split; [discriminate|]. discriminate.
  - split; [discriminate|]. intros s' [= <-]. auto.
Qed.

(** Both inputs from [-]: the first read closes stdin and the second reads from it. *)
Theorem C162_stdin_twice_refuted : exists os,
  os = [OptI Dash; OptI Dash; OptO Can] /\ gensrc_streams false false os = Misuse.
Proof. eexists. split; reflexivity. Qed.

(** It is so wherever the two stand, with whatever is between, as long as the options
    before the second are known ones and all files can be opened. *)
Theorem C162_stdin_twice : forall dbgfilter operands others r,
  Forall (fun o => o = OptOther \/ o = OptO Can) others ->
  gensrc_streams dbgfilter operands (OptI Dash :: others ++ OptI Dash :: r) = Misuse.
Proof.
  intros fi op others r F. unfold gensrc_streams.
  assert (G : forall s, In StdIn (closed s) -> k s = 1%nat ->
      (forall f, outf s = Some f -> exists n, f = File n /\ (n < opened s)%nat /\ ~ In f (closed s)) ->
      (forall n, In (File n) (closed s) -> (n < opened s)%nat) ->
      steps s (others ++ OptI Dash :: r) = Misuse).
  { induction F as [|o l P F IH]; intros s I K O C; cbn [steps app].
    - cbn [step]. rewrite K. cbn [Nat.leb read_file]. unfold use.
      apply closed_in in I. rewrite I. reflexivity.
    - destruct P as [->| ->]; cbn [step].
      + cbn [bind]. apply IH; assumption.
      + unfold close_out. destruct (outf s) as [f|] eqn:E.
        * destruct (O f eq_refl) as (n & -> & L & N). unfold fclose.
          rewrite (closed_not _ _ N). cbn. apply IH; cbn; auto.
          -- intros f [= <-]. eexists. split; [reflexivity|]. split; [lia|].
             intros [X|X]; [injection X as X; lia|]. apply C in X. lia.
          -- intros m [X|X]; [injection X as <-; lia|]. apply C in X. lia.
        * cbn. apply IH; cbn; auto.
          -- intros f [= <-]. eexists. split; [reflexivity|]. split; [lia|].
             intros X. apply C in X. lia.
          -- intros m X. apply C in X. lia. }
  cbn [steps step k]. cbn -[steps]. rewrite G; try reflexivity; cbn; auto.
  - discriminate.
  - intros n [X|[]]. discriminate.
Qed.

(** [-o -] twice: stdout is closed and then used. *)
Theorem C162_stdout_twice_refuted : exists os,
  os = [OptI Can; OptI Can; OptO Dash; OptO Dash] /\ gensrc_streams false false os = Misuse.
Proof. eexists. split; reflexivity. Qed.

(** A second [-o] with a file takes the place of the first: it closes it, and at the
    end both are closed. *)
Theorem C162_last_output : forall s f,
  outf s = Some f -> ~ In f (closed s) ->
  exists s', step s (OptO Can) = Fine (s', true) /\ In f (closed s') /\
    outf s' = Some (File (opened s)) /\ k s' = k s /\
    (forall g, In g (closed s') <-> g = f \/ In g (closed s)).
Proof.
  intros s f F N. cbn [step]. unfold close_out. rewrite F. unfold fclose.
  rewrite (closed_not _ _ N). cbn. eexists. split; [reflexivity|]. cbn.
  split; [auto|]. split; [reflexivity|]. split; [reflexivity|].
  intros g. split; intros [X|X]; auto.
Qed.

(** Files that can be opened, and then the output: the program comes to its end if
    there are two inputs, or one and --dbg-filter. *)
Theorem C162_inputs : forall dbgfilter os,
  Forall (fun o => o = OptOther \/ o = OptI Can) os ->
  (exists s, gensrc_streams dbgfilter false (os ++ [OptO Can]) = Fine s) <->
  (let n := length (filter (fun o => match o with OptI _ => true | _ => false end) os) in
   n = 2%nat \/ (n = 1%nat /\ dbgfilter = true)).
Proof.
  intros fi os F. cbn zeta. unfold gensrc_streams.
  assert (G : forall s, outf s = None -> (k s <= 2)%nat ->
    (forall n, In (File n) (closed s) -> (n < opened s)%nat) ->
    let n := length (filter (fun o => match o with OptI _ => true | _ => false end) os) in
    ((2 < k s + n)%nat /\ steps s (os ++ [OptO Can]) = Fatal) \/
    ((k s + n <= 2)%nat /\ exists s' f, steps s (os ++ [OptO Can]) = Fine (s', true) /\
       k s' = (k s + n)%nat /\ outf s' = Some f /\ ~ In f (closed s'))).
  { cbn zeta. induction F as [|o r P F IH]; intros s O K C.
    - right. split; [cbn; lia|]. cbn [app steps step]. unfold close_out. rewrite O. cbn.
      eexists _, _. split; [reflexivity|]. cbn. split; [lia|]. split; [reflexivity|].
      intros X. apply C in X. lia.
    - destruct P as [->| ->]; cbn [app steps step filter].
      + cbn [bind]. apply IH; assumption.
      + destruct (Nat.leb 2 (k s)) eqn:L.
        * apply Nat.leb_le in L. left. split; [cbn [length]; lia|]. reflexivity.
        * apply Nat.leb_gt in L. cbn [read_file fopen].
          set (s1 := mkSt (S (opened s)) (closed s) (k s) (outf s)).
          assert (N : ~ In (File (opened s)) (closed s1)).
          { intros X. apply C in X. lia. }
          unfold use, fclose. rewrite (closed_not _ _ N). cbn [bind].
          rewrite (closed_not _ _ N). cbn [bind opened closed k outf s1].
          destruct (IH (mkSt (S (opened s)) (File (opened s) :: closed s) (S (k s)) (outf s)))
            as [[A B]|[A (s' & f & B & D & E)]].
          -- exact O.
          -- cbn. lia.
          -- cbn. intros n [X|X]; [injection X as <-; lia|]. apply C in X. lia.
          -- left. cbn [k length] in *. split; [lia|exact B].
          -- right. cbn [k length] in *. split; [lia|]. exists s', f. split; [exact B|].
             split; [lia|exact E]. }
  destruct (G (mkSt 0 [] 0 None)) as [[A B]|[A (s' & f & B & D & E & N)]];
    [reflexivity|cbn; lia|intros n []| |]; rewrite B; cbn [bind k] in *.
  - split; [intros [s X]; discriminate|]. lia.
  - cbn [negb]. rewrite E, D. cbn [Nat.add].
    destruct (Nat.ltb _ (if fi then 1 else 2)) eqn:L.
    + apply Nat.ltb_lt in L. split; [intros [s X]; discriminate|].
      destruct fi; intros [X|[X Y]]; try discriminate; lia.
    + apply Nat.ltb_ge in L. unfold use, close_out, fclose. rewrite (closed_not _ _ N).
      cbn [bind]. rewrite E, (closed_not _ _ N). split; [|intros _; eexists; reflexivity].
      intros _. destruct fi; lia.
Qed.
Example C162_inputs_ex : Forall (fun o => o = OptOther \/ o = OptI Can) [OptI Can; OptOther; OptI Can].
Proof. constructor; [auto|]. constructor; [auto|]. constructor; [auto|]. constructor. Qed.

(** One input from stdin, one from a file, two outputs. *)
Example C162_ex :
  let os := [OptI Dash; OptO Can; OptOther; OptI Can; OptO Dash] in
  (length (filter (fun o => match o with OptI Dash => true | _ => false end) os) <= 1)%nat /\
  (length (filter (fun o => match o with OptO Dash => true | _ => false end) os) <= 1)%nat /\
  exists s, gensrc_streams false false os = Fine s /\ opened s = 2%nat /\ length (closed s) = 4%nat.
Proof. cbn. split; [lia|]. split; [lia|]. eexists. repeat split. Qed.
Example C162_stdin_ex : Forall (fun o => o = OptOther \/ o = OptO Can) [OptO Can; OptOther].
Proof. constructor; [auto|]. constructor; [auto|]. constructor. Qed.
Example C162_output_ex : let s := mkSt 1 [StdIn] 1 (Some (File 0)) in
  outf s = Some (File 0) /\ ~ In (File 0) (closed s).
Proof. split; [reflexivity|]. cbn. intros [X|[]]. discriminate. Qed.

Print Assumptions C162_streams_partial.
Print Assumptions C162_stdin_twice_refuted.
Print Assumptions C162_stdin_twice.
Print Assumptions C162_stdout_twice_refuted.
Print Assumptions C162_last_output.
Print Assumptions C162_inputs.
