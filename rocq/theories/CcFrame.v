(* Proofs about the compiler wrapper: what is run at all; which command lines are handed to the compiler as they are. *)
From Coq Require Import ZArith List Bool String Sorted Lia.
From Verif Require Import Base BaseProofs StorageModel TextModel StripProofs CcModel CcSpec CcProofs CcRun CcMain CcWhole.
Import ListNotations.
Open Scope Z_scope.
Open Scope list_scope.

Definition other (e : ev) : Prop := forall p a, e <> Exec p a.
Definition emits {A} (m : M A) : Prop := forall h, exists d, snd (m h) = d ++ h /\ Forall (fun x => other (fst x)) d.

Lemma emits_ret {A} (a : A) : emits (ret a).
Proof. intros h. exists []. auto. Qed.
Lemma emits_exit {A} rc : emits (@exit A rc).
Proof. intros h. exists []. auto. Qed.
Lemma emits_bad {A} : emits (@bad A).
Proof. intros h. exists []. auto. Qed.
Lemma emits_bind {A B} (m : M A) (f : A -> M B) : emits m -> (forall a, emits (f a)) -> emits (mbind m f).
Proof.
  intros E F h. destruct (E h) as (d & E1 & E2). unfold mbind. destruct (m h) as [[a|rc|] h']; cbn [snd] in *; subst h'; eauto.
  destruct (F a (d ++ h)) as (d2 & F1 & F2). exists (d2 ++ d). rewrite F1, app_assoc. split; auto. apply Forall_app; auto.
Qed.
Lemma emits_ask w e : other e -> emits (ask w e).
Proof. intros O h. exists [(e, w h e)]. split; [reflexivity|]. constructor; auto. Qed.

Ltac em := repeat first
  [ apply emits_bind; [|intros] | apply emits_ret | apply emits_exit | apply emits_bad
  | apply emits_ask; intros ? ?; discriminate | assumption
  | match goal with |- emits (match ?x with _ => _ end) => destruct x end | progress cbv zeta ].

Lemma emits_aput l i x : emits (aput l i x). Proof. unfold aput. em. Qed.
Lemma emits_aget l i : emits (aget l i). Proof. unfold aget. em. Qed.
Lemma emits_aputs xs : forall l i, emits (aputs l i xs).
Proof. induction xs; intros; cbn; em; try apply emits_aput; auto. Qed.
Lemma emits_gaps n : forall i j m, emits (close_gaps n i j m).
Proof. induction n; intros; cbn; em; try apply emits_aput; try apply emits_aget; auto. Qed.
Lemma emits_modify k c : emits (modify_args k c).
Proof. unfold modify_args. em; try apply emits_aput; try apply emits_aputs; try apply emits_gaps. Qed.

Section World.
Variable w : world.
Variable rp : text -> option text.
Variable k : conf.
Lemma emits_run args path : emits (run_cmd w args path). Proof. unfold run_cmd. em. Qed.
Lemma emits_rename a b : emits (rename w a b). Proof. unfold rename. em. Qed.
Lemma emits_copy a b : emits (copy_file w a b). Proof. unfold copy_file. em. Qed.
Lemma emits_filter f : emits (do_dbgfilter w k f).
Proof. unfold do_dbgfilter, run_gensrc. em; try apply emits_run; try apply emits_rename. Qed.
Lemma emits_pair a b : emits (generate_pair w k a b).
Proof. unfold generate_pair, run_gensrc. em; try apply emits_run; try apply emits_rename; try apply emits_filter. Qed.
Lemma emits_gen a : emits (do_generate_kpatch w k a).
Proof. unfold do_generate_kpatch. em; try apply emits_filter; try apply emits_pair. Qed.
Lemma emits_dirs l : emits (make_dirs w l). Proof. induction l; cbn; em; auto. Qed.
Lemma emits_gaf o p : emits (get_assembler_filename w rp k o p).
Proof. unfold get_assembler_filename. em; try apply emits_dirs. Qed.
Ltac em2 := em; try apply emits_filter; try apply emits_pair; try apply emits_dirs; try apply emits_rename; try apply emits_aput; try apply emits_aget; try apply emits_run; try apply emits_copy; try apply emits_gen; try apply emits_gaf.
Lemma emits_single c : emits (compile_single w rp k c).
Proof. unfold compile_single. em2. Qed.
Lemma emits_plain n : forall j argv ins, emits (plain_args n j argv ins).
Proof. induction n; intros; cbn; em2; auto. Qed.
Lemma emits_one c plain f : emits (one_input w rp k c plain f).
Proof. unfold one_input. em2. Qed.
Lemma emits_each n : forall i c plain ins argv, emits (each_input w rp k n i c plain ins argv).
Proof. induction n; intros; cbn; em2; auto; apply emits_one. Qed.
Lemma emits_build c : emits (build_multiple w rp k c).
Proof. unfold build_multiple. em2; [apply emits_plain|apply emits_each]. Qed.
Lemma emulate_emits c : l_action c <> APass -> emits (emulate_cc w rp k c).
Proof.
  intros N. assert (Q : emits (get c' <- modify_args k c; match l_action c' with
    | ACompile | AAsm | AAsmCpp | AGen => compile_single w rp k c' | AMulti => build_multiple w rp k c' | _ => ret 129 end)).
  { apply emits_bind; [apply emits_modify|]. intros c'. destruct (l_action c'); try apply emits_ret; try apply emits_single; apply emits_build. }
  unfold emulate_cc. destruct (l_action c); try exact Q. contradiction.
Qed.
End World.

Lemma cargs_passed k args : cargs (l_argv (passed k args)) = k_real k :: args.
Proof. cbn. f_equal. induction args as [|a l IH]; cbn; [reflexivity|]. rewrite IH. reflexivity. Qed.
Lemma init_passed k args c : init_args k args = Val c -> l_action c = APass -> c = passed k args.
Proof.
  unfold init_args. cbv zeta. destruct (k_stage k).
  3: { intros E _. inversion E. reflexivity. }
  all: destruct (typed _ _ _ _) as [a6|rc|]; cbn [obind]; try discriminate;
    destruct a6; intros E; inversion E; try reflexivity; cbn [l_action]; discriminate.
Qed.

Definition passes (w : world) (k : conf) (args : list text) (x : out Z * hist) : Prop :=
  x = (Val 129, [(Exec (k_real k) (k_real k :: args), w [] (Exec (k_real k) (k_real k :: args)))]).
Lemma passed_run w rp k args : passes w k args (emulate_cc w rp k (passed k args) []).
Proof. unfold passes, emulate_cc. cbn [passed l_action]. unfold mbind, ask, ret. rewrite cargs_passed. reflexivity. Qed.

Lemma kpcc_conf w rp e addr prog args k c : init_conf prog args e addr = Val k -> init_args k args = Val c ->
  kpcc w rp e addr prog args = emulate_cc w rp k c [].
Proof. intros E1 E2. unfold kpcc. rewrite E1. cbn [obind]. rewrite E2. reflexivity. Qed.

(** ** Command lines with nothing to patch *)
Lemma init_words k ws : k_stage k <> Configure -> Forall wd_ok ws ->
  (forall a0, a0 = APass \/ a0 = AShowV ->
    let s := effs ws 1 (scan0 a0) in
    let argv := Some (k_real k) :: map (option_map snd) (all_slots ws) ++ [None] ++ repeat None (length (k_append k) + 2) in
    let a3 := decide (sc_action s) (length (ins ws)) in
    let o := out_file a3 (last (map Some (outs ws)) None) (nth (sc_input s) argv None) in
    typed (k_asm k) (nth (sc_input s) argv None) (nth (sc_lang s) argv None) (pass_null o a3) = Val APass) ->
  init_args k (spell_all ws) = Val (passed k (spell_all ws)).
Proof.
  intros NC K T. unfold init_args.
  set (a0 := match spell_all ws with [b] => if teq b (str "-v") then AShowV else APass | _ => APass end).
  assert (A0 : a0 = APass \/ a0 = AShowV).
  { subst a0. destruct (spell_all ws) as [|x [|y r]]; auto. destruct (teq x (str "-v")); auto. }
  specialize (T a0 A0). cbv zeta in T.
  rewrite scan_all by exact K. cbn [fst snd]. rewrite zip_argv. cbv zeta.
  rewrite (effs_n ws 1 (scan0 a0)), (effs_out ws 1 (scan0 a0)). cbn [scan0 sc_ninput sc_out Nat.add].
  rewrite T. destruct (k_stage k); try contradiction; reflexivity.
Qed.

Lemma nothing_passed k ws : k_stage k <> Configure -> Forall wd_ok ws -> nothing_to_patch k ws ->
  init_args k (spell_all ws) = Val (passed k (spell_all ws)).
Proof.
  intros NC K H. apply init_words; auto. intros a0 A0. cbv zeta. set (argv := Some (k_real k) :: _).
  assert (DN : forall a f, pass_null (out_file a (Some (str "/dev/null")) f) a = APass) by (intros a f; destruct a; reflexivity).
  destruct H as [(EA & H)|[(l & EO)|[(c & EA & L)|(EA & KA & f & EI & AF)]]].
  - destruct (effs_action0 ws EA 1 (scan0 a0)) as [E1 _]. rewrite E1. cbn [scan0 sc_action].
    destruct H as [E|E]; rewrite E.
    + assert (decide a0 (length (@nil text)) = APass) as -> by (destruct A0 as [-> | ->]; reflexivity).
      assert (forall o f, pass_null (out_file APass o f) APass = APass) as ->; [|reflexivity].
      intros o f. cbn [out_file]. unfold pass_null. destruct o as [o|]; [destruct (teq o _)|]; reflexivity.
    + cbn [map last]. destruct A0 as [-> | ->]; cbn [decide]; [destruct (Nat.ltb 0 _)|]; reflexivity.
  - rewrite (last_outs ws l _ EO), DN. reflexivity.
  - destruct (effs_act ws c EA 1 (scan0 a0)) as (p & E1 & _). rewrite E1.
    assert (decide (if c then ACompile else AGen) (length (ins ws)) = APass) as ->.
    { assert (Nat.ltb 1 (length (ins ws)) = true) as E by (apply Nat.ltb_lt; lia). destruct c; cbn [decide]; rewrite E; reflexivity. }
    cbn [out_file]. unfold pass_null. destruct (last _ _) as [o|]; [destruct (teq o _)|]; reflexivity.
  - destruct (effs_act ws true EA 1 (scan0 a0)) as (p & E1 & _). rewrite E1, EI. cbn [length decide Nat.ltb Nat.leb].
    destruct (effs_in ws f EI 1 (scan0 a0)) as (pi & I1 & I2 & _). rewrite I1.
    assert (NI : nth (1 + pi) argv None = Some f) by exact (nth_argv ws _ _ pi TIn f I2). rewrite NI.
    unfold pass_null. destruct (out_file _ _ _) as [o|]; [destruct (teq o _); [reflexivity|]|reflexivity].
    cbn [typed]. destruct AF as [AF|AF]; [rewrite (asm_type _ _ AF)|rewrite (asmcpp_type _ _ AF)]; cbn [obind by_type]; rewrite KA; reflexivity.
Qed.

(** ** The environment *)
Lemma real_is prog e : is_real e prog (real_of prog e).
Proof.
  unfold is_real, real_of. cbn [In].
  destruct (teq prog (str "g++")) eqn:E1; [apply teq_eq in E1|]; cbn [orb].
  { left. split; [left; congruence|]. destruct (e (str "KPCXXREAL")); cbn; auto. }
  destruct (teq prog (str "c++")) eqn:E2; [apply teq_eq in E2|]; cbn [orb].
  { left. split; [right; left; congruence|]. destruct (e (str "KPCXXREAL")); cbn; auto. }
  destruct (teq prog (str "kpcc++")) eqn:E3; [apply teq_eq in E3|]; cbn [orb].
  { left. split; [right; right; left; congruence|]. destruct (e (str "KPCXXREAL")); cbn; auto. }
  right. split.
  - intros [H|[H|[H|[]]]]; subst prog; rewrite teq_refl in *; discriminate.
  - destruct (e (str "KPCCREAL")); cbn; auto.
Qed.
Lemma real_unique prog e r r' : is_real e prog r -> is_real e prog r' -> r = r'.
Proof. unfold is_real. intros [[A H]|[A H]] [[B H']|[B H']]; try contradiction; destruct H as [H|[H ->]], H' as [H'|[H' ->]]; congruence. Qed.

Lemma init_conf_real prog args e addr k : init_conf prog args e addr = Val k -> k_real k = real_of prog e.
Proof.
  unfold init_conf. destruct (e (str "KPATCH_PATH")); [|discriminate]. destruct (e (str "KPATCH_STAGE")); [|discriminate].
  destruct (stage_of t0); [|discriminate]. cbv zeta.
  destruct (if looks_configure (prog :: args) then Configure else s).
  3: { intros E. inversion E. reflexivity. }
  all: unfold obind; destruct (env_remove e addr); try discriminate;
    repeat (destruct (env_list e _ _); try discriminate); intros E; inversion E; reflexivity.
Qed.
Lemma stage_of_ok s st : stage_of s = Some st -> s = match st with Original => str "original" | Patched => str "patched" | Configure => str "configure" end.
Proof.
  unfold stage_of. destruct (teq s (str "original")) eqn:E1; [intros E; injection E as <-; apply teq_eq; exact E1|].
  destruct (teq s (str "patched")) eqn:E2; [intros E; injection E as <-; apply teq_eq; exact E2|].
  destruct (teq s (str "configure")) eqn:E3; [intros E; injection E as <-; apply teq_eq; exact E3|discriminate].
Qed.
Lemma init_conf_stage prog args e addr k : init_conf prog args e addr = Val k ->
  e (str "KPATCH_STAGE") = Some (k_stagename k) /\ (k_stage k = Original -> k_stagename k = str "original") /\
  (k_stage k = Patched -> k_stagename k = str "patched") /\ e (str "KPATCH_PATH") = Some (k_path k) /\
  (k_stage k = Configure <-> k_stagename k = str "configure" \/ looks_configure (prog :: args) = true).
Proof.
  unfold init_conf. destruct (e (str "KPATCH_PATH")) eqn:EP; [|discriminate]. destruct (e (str "KPATCH_STAGE")) as [sn|] eqn:ES; [|discriminate].
  destruct (stage_of sn) as [st|] eqn:SO; [|discriminate]. cbv zeta. apply stage_of_ok in SO.
  assert (NA : str "original" <> str "configure") by discriminate. assert (NB : str "patched" <> str "configure") by discriminate.
  destruct (looks_configure (prog :: args)) eqn:LC.
  { intros E. injection E as <-. cbn [k_stagename k_stage k_path]. split; [auto|]. split; [discriminate|]. split; [discriminate|]. split; [auto|]. split; auto. }
  destruct st.
  3: { intros E. injection E as <-. cbn [k_stagename k_stage k_path]. split; [auto|]. split; [discriminate|]. split; [discriminate|]. split; [auto|]. split; auto. }
  all: unfold obind; destruct (env_remove e addr); try discriminate;
    repeat (destruct (env_list e _ _); try discriminate); intros E; injection E as <-; cbn [k_stagename k_stage k_path].
  all: split; [auto|]; split; [intros; auto; discriminate|]; split; [intros; auto; discriminate|]; split; [auto|]; split; [discriminate|].
  all: intros [H|H]; [rewrite SO in H; contradiction|discriminate].
Qed.
Lemma looks_ok args : looks_configure args = true <-> probing args.
Proof.
  unfold looks_configure, probing. rewrite existsb_exists. split.
  - intros (x & I & H). apply orb_true_iff in H. rewrite !contains_iff in H. destruct H as [(a & b & H)|(a & b & H)]; exists x, a, b; auto.
  - intros (x & a & b & I & H). exists x. split; auto. apply orb_true_iff. rewrite !contains_iff. destruct H; eauto.
Qed.

Definition glue (cur : text) (l : list text) : list text := match l with x :: xs => (cur ++ x) :: xs | [] => [cur] end.
Lemma pieces_words s : forall off start cur,
  map snd (pieces off start cur s) = filter (fun x => match x with [] => false | _ => true end) (glue cur (between s)).
Proof.
  induction s as [|c s IH]; intros off start cur; cbn [pieces between glue].
  - rewrite app_nil_r. destruct cur; reflexivity.
  - destruct (c =? 59).
    + cbn [glue]. rewrite app_nil_r. assert (E : glue [] (between s) = between s).
      { destruct (between s) eqn:E; [|reflexivity]. destruct s as [|c' s]; [discriminate|]. cbn in E. destruct (c' =? 59); [discriminate|]. destruct (between s); discriminate. }
      destruct cur; cbn [map snd filter]; rewrite IH, E; reflexivity.
    + rewrite IH. f_equal. destruct (between s); cbn [glue]; [reflexivity|]. rewrite <- app_assoc. reflexivity.
Qed.
Lemma split_words s l : split_args s = Val l -> map snd l = list_words s.
Proof.
  unfold split_args. destruct (Nat.ltb _ _); [discriminate|]. intros E. injection E as <-. rewrite pieces_words. unfold list_words.
  f_equal. destruct (between s) eqn:E; [|reflexivity]. destruct s as [|c' s]; [discriminate|]. cbn in E. destruct (c' =? 59); [discriminate|]. destruct (between s); discriminate.
Qed.
Lemma env_list_words e v d l : env_list e v d = Val l -> l = from_list (e v) d.
Proof.
  unfold env_list, from_list. destruct (e v) as [s|]; [|intros E; injection E; auto]. destruct (split_args s) eqn:E; try discriminate.
  intros H. injection H as <-. apply split_words. exact E.
Qed.
