(** Proofs about messages. *)
From Coq Require Import String.
From Verif Require Import Base BaseProofs StorageModel CliModel LogModel LogSpec.
Open Scope list_scope.

Section P.
Variable wr : nat -> option Z.
Variable elf : nat -> Z.
Variable place : list Z -> Z -> list Z.
Variable errno_line elf_line : Z -> list Z.
Notation step' := (step wr elf place errno_line elf_line).
Notation run' := (run wr elf place errno_line elf_line).

Lemma step_errno lv ind c s s' : step' lv ind c s = Done s' -> s_errno s' = s_errno s.
Proof.
  destruct c; cbn [step]; intro H.
  - unfold kplog in H. destruct (lv <? level); [injection H as <-; reflexivity|].
    destruct ((0 <=? ind) && (ind <? 8)); [|discriminate H]. injection H as <-. reflexivity.
  - injection H as <-. reflexivity.
  - injection H as <-. reflexivity.
  - discriminate H.
  - discriminate H.
Qed.
Lemma run_errno lv ind cs : forall s s', run' lv ind cs s = Done s' -> s_errno s' = s_errno s.
Proof.
  induction cs as [|c cs IH]; intros s s' H; cbn [run] in H; [injection H as <-; reflexivity|].
  destruct (step' lv ind c s) as [s1| |] eqn:E; [|discriminate H|discriminate H].
  rewrite (IH s1 s' H). exact (step_errno lv ind c s s1 E).
Qed.
Lemma run_defined lv ind cs : 0 <= ind < 8 -> forall s, run' lv ind cs s <> Undefined.
Proof.
  intro I. induction cs as [|c cs IH]; intros s H; cbn [run] in H; [discriminate H|].
  destruct (step' lv ind c s) as [s1| |] eqn:E; [exact (IH s1 H)|discriminate H|].
  destruct c; cbn [step] in E; try discriminate E. unfold kplog in E.
  destruct (lv <? level); [discriminate E|].
  replace ((0 <=? ind) && (ind <? 8)) with true in E; [discriminate E|].
  symmetry. apply andb_true_intro. split; [apply Z.leb_le|apply Z.ltb_lt]; lia.
Qed.

(** Output never changes errno, and libelf always reports the same. *)
Variable elf_e : Z.
Hypothesis silent : forall n, wr n = None.
Hypothesis same : forall n, elf n = elf_e.
Definition st_of (o : out) : st := match o with Done s | Exit _ s => s | Undefined => {| s_errno := 0; s_n := 0; s_out := [] |} end.

Lemma step_shown lv ind c s : 0 <= ind < 8 ->
  let o := step' lv ind c s in
  s_out (st_of o) = s_out s ++ shown place errno_line elf_line lv ind (s_errno s) elf_e c /\
  (if ends c then exists s', o = Exit 1 s' else exists s', o = Done s').
Proof.
  intro I. assert (W : forall e, match (@None Z) with Some x => x | None => e end = e) by reflexivity.
  assert (II : (0 <=? ind) && (ind <? 8) = true) by (apply andb_true_intro; split; [apply Z.leb_le|apply Z.ltb_lt]; lia).
  destruct c; cbn [step ends st_of]; cbv zeta.
  - unfold kplog. rewrite II. cbn [shown]. replace (level <=? lv) with (negb (lv <? level)).
    2: { rewrite Z.ltb_antisym, Bool.negb_involutive. reflexivity. }
    destruct (lv <? level); cbn [negb st_of].
    + rewrite app_nil_r. split; [reflexivity|eexists; reflexivity].
    + unfold valog, put. cbn [s_out set_errno s_n]. rewrite <- app_assoc. cbn [app].
      assert (T : (level <=? LOG_WARN) = (level <? 2)).
      { unfold LOG_WARN. destruct (Z.leb_spec level 1), (Z.ltb_spec level 2); lia || reflexivity. }
      rewrite T. split; [reflexivity|eexists; reflexivity].
  - unfold valogerror, valog, put. cbn [s_out set_errno s_n s_errno shown]. rewrite !silent, !same.
    split; [|eexists; reflexivity].
    destruct (s_errno s =? 0), (elf_e =? 0); cbn [s_out s_errno s_n set_errno negb andb app]; rewrite <- ?app_assoc; cbn [app]; rewrite ?app_nil_r; reflexivity.
  - unfold valogerror, valog, put. cbn [s_out set_errno s_n s_errno shown]. rewrite !same.
    split; [|eexists; reflexivity].
    change (0 =? 0) with true. cbv iota. cbn [s_n andb].
    destruct (elf_e =? 0); cbn [s_out s_errno s_n set_errno negb andb app]; rewrite <- ?app_assoc; cbn [app]; rewrite ?app_nil_r; reflexivity.
  - unfold valog, put. cbn [s_out s_errno s_n shown]. rewrite <- app_assoc. cbn [app].
    change (LOG_ERR <=? LOG_WARN) with true. split; [reflexivity|eexists; reflexivity].
  - unfold valogerror, valog, put. cbn [s_out set_errno s_n s_errno shown]. rewrite !silent, !same.
    split; [|eexists; reflexivity].
    destruct (s_errno s =? 0), (elf_e =? 0); cbn [s_out s_errno s_n set_errno negb andb app]; rewrite <- ?app_assoc; cbn [app]; rewrite ?app_nil_r; reflexivity.
Qed.
Lemma run_shown lv ind cs : 0 <= ind < 8 -> forall s,
  let o := run' lv ind cs s in
  s_out (st_of o) = s_out s ++ flat_map (shown place errno_line elf_line lv ind (s_errno s) elf_e) (made cs) /\
  (if existsb ends cs then exists s', o = Exit 1 s' else exists s', o = Done s').
Proof.
  intro I. induction cs as [|c cs IH]; intro s; cbn [run made existsb flat_map].
  - rewrite app_nil_r. split; [reflexivity|exists s; reflexivity].
  - destruct (step_shown lv ind c s I) as [O E]. cbv zeta in *.
    destruct (ends c) eqn:Ec; cbn [orb].
    + destruct E as (s' & E). rewrite E in *. cbn [flat_map]. rewrite app_nil_r. split; [exact O|exists s'; reflexivity].
    + destruct E as (s' & E). rewrite E in *. cbn [st_of] in O. cbn [flat_map].
      destruct (IH s') as [O2 E2]. rewrite (step_errno lv ind c s s' E) in O2. rewrite O2, O, <- app_assoc.
      split; [reflexivity|exact E2].
Qed.
End P.

(** The level. *)
Lemma info_events l : exists es,
  getopt {| g_flags := [104; 118]; g_args := [112] |} None (concat (map words l)) = (es, []) /\
  (forall o, exists o', fst (opt_loop [ch_p; ch_v] false es o) = inl o') /\
  existsb (fun e => match e_opt e with Some c => c =? ch_v | None => false end) es
  = negb (forallb (fun o => match o with Verbose => false | Pid _ => true end) l).
Proof.
  induction l as [|[|n] l (es & E & L & V)].
  - exists []. split; [reflexivity|]. split; [intro o; exists o; reflexivity|reflexivity].
  - exists ({| e_opt := Some 118; e_arg := []; e_rest := false |} :: es). cbn [map concat words app].
    split; [|split].
    + change (str "-v") with [45; 118]. cbn [getopt]. cbn [list_eqb scan_word]. cbn.
      rewrite E. reflexivity.
    + intro o. destruct (L o) as (o' & H). exists o'. cbn. exact H.
    + cbn. reflexivity.
  - exists ({| e_opt := Some 112; e_arg := n; e_rest := false |} :: es). cbn [map concat words app].
    split; [|split].
    + change (str "-p") with [45; 112]. cbn [getopt list_eqb scan_word]. cbn. rewrite E. reflexivity.
    + intro o. cbn. apply L.
    + cbn [existsb e_opt forallb andb]. exact V.
Qed.
Lemma other_level cmd args lv : cmd <> str "info" -> cmd <> str "info-user" -> level_after cmd args lv = lv.
Proof.
  intros N1 N2. unfold level_after, command_of.
  destruct (list_eqb cmd (str "patch") || list_eqb cmd (str "patch-user")); [reflexivity|].
  destruct (list_eqb cmd (str "unpatch") || list_eqb cmd (str "unpatch-user")); [reflexivity|].
  destruct (list_eqb cmd (str "info")) eqn:E1; [apply list_eqb_eq in E1; contradiction|].
  destruct (list_eqb cmd (str "info-user")) eqn:E2; [apply list_eqb_eq in E2; contradiction|]. reflexivity.
Qed.
Lemma level_step c lv : scmd_ok c -> level_after (fst (typed c)) (snd (typed c)) lv = if quiet c then LOG_ERR else lv.
Proof.
  destruct c as [cmd args|n l]; cbn [scmd_ok typed fst snd quiet]; intro H.
  - apply other_level; apply H.
  - destruct (info_events l) as (es & E & L & V). unfold level_after.
    replace (command_of n) with (Some CInfo) by (destruct H; subst n; reflexivity).
    rewrite E. destruct (L opt0) as (o' & ->). rewrite V. destruct (forallb _ l); reflexivity.
Qed.
Lemma levels l : forall lv, Forall scmd_ok l -> levels_after (map typed l) lv = if existsb quiet l then LOG_ERR else lv.
Proof.
  induction l as [|c l IH]; intros lv H; [reflexivity|]. inversion H as [|? ? H1 H2]; subst.
  change (levels_after (map typed (c :: l)) lv) with (levels_after (map typed l) (level_after (fst (typed c)) (snd (typed c)) lv)).
  rewrite (level_step c lv H1), (IH _ H2). cbn [existsb]. destruct (quiet c), (existsb quiet l); reflexivity.
Qed.
Lemma main_vs k ops : match ops with (45 :: _ :: _) :: _ => False | _ => True end ->
  main_level (repeat (str "-v") k ++ ops) = Some (2 + Z.of_nat k, ops).
Proof.
  intro H. unfold main_level.
  assert (G : getopt {| g_flags := [118; 104]; g_args := [] |} None (repeat (str "-v") k ++ ops)
    = (repeat {| e_opt := Some 118; e_arg := []; e_rest := false |} k, ops)).
  { induction k as [|k IH].
    - cbn [repeat app]. destruct ops as [|a r]; [reflexivity|]. cbn [getopt]. destruct a as [|c [|d a]]; try reflexivity.
      + destruct c as [|c|c]; try reflexivity. repeat (destruct c as [c|c|]; try reflexivity).
      + destruct (Z.eq_dec c 45) as [->|N]; [destruct H|].
        destruct c as [|c|c]; try reflexivity. repeat (destruct c as [c|c|]; try reflexivity). destruct (N eq_refl).
    - change (repeat (str "-v") (S k) ++ ops) with ([45; 118] :: (repeat (str "-v") k ++ ops)).
      revert IH. generalize (repeat (str "-v") k ++ ops). intros tl IH. cbn. rewrite IH. reflexivity. }
  rewrite G. clear G H.
  assert (C : forall lv, count_v (repeat {| e_opt := Some 118; e_arg := []; e_rest := false |} k) lv = Some (lv + Z.of_nat k)).
  { induction k as [|k IH]; intro lv; [cbn; f_equal; lia|]. cbn [repeat count_v e_opt]. change (118 =? ch_v) with true. cbv iota.
    rewrite IH. f_equal. lia. }
  rewrite C. reflexivity.
Qed.
