(* Proofs about the compiler wrapper: how failures end a run, arguments to be removed, the scan of the command line. *)
From Coq Require Import ZArith List Bool String Sorted Lia.
From Verif Require Import Base BaseProofs StorageModel TextModel CcModel CcSpec.
Import ListNotations.
Open Scope Z_scope.
Open Scope list_scope.

(** ** Failures *)
Definition steps {A} (good : A -> bool) (m : M A) : Prop :=
  forall h, exists d, snd (m h) = d ++ h /\
    match fst (m h) with
    | Val a => if good a then Forall fine d else exists x d', d = x :: d' /\ ~ fine x /\ Forall fine d'
    | Exit v => v <> 0 /\ Forall fine (tl d)
    | Bad => Forall fine d
    end.

Definition any {A} (_ : A) : bool := true.
Definition zero (z : Z) : bool := z =? 0.
Definition zero1 {A} (x : Z * A) : bool := fst x =? 0.

Lemma steps_ret {A} (good : A -> bool) a : good a = true -> steps good (ret a).
Proof. intros G h. exists []. cbn. rewrite G. auto. Qed.
Lemma steps_exit {A} (good : A -> bool) rc : rc <> 0 -> steps good (exit rc).
Proof. intros G h. exists []. cbn. auto. Qed.
Lemma steps_bad {A} (good : A -> bool) : steps good bad.
Proof. intros h. exists []. cbn. auto. Qed.

Lemma Forall_tl {A} (P : A -> Prop) l : Forall P l -> Forall P (tl l).
Proof. destruct l; cbn; auto. inversion 1; auto. Qed.
Lemma tl_app {A} (x y : list A) : tl (x ++ y) = match x with [] => tl y | _ :: x' => x' ++ y end.
Proof. destruct x; reflexivity. Qed.

Lemma steps_bind {A B} (ga : A -> bool) (gb : B -> bool) (m : M A) (f : A -> M B) :
  steps ga m -> (forall a, ga a = true -> steps gb (f a)) ->
  (forall a, ga a = false -> exists b, f a = ret b /\ gb b = false \/ f a = exit 129) -> steps gb (mbind m f).
Proof.
  intros S1 S2 S3 h. destruct (S1 h) as (d & E & H). unfold mbind.
  destruct (m h) as [[a|rc|] h'] eqn:Em; cbn [fst snd] in *; subst h'.
  - destruct (ga a) eqn:G.
    + destruct (S2 a G (d ++ h)) as (d2 & E2 & H2). exists (d2 ++ d). rewrite E2, app_assoc. split; [reflexivity|].
      destruct (fst (f a (d ++ h))) as [b|rc|].
      * destruct (gb b).
        -- apply Forall_app. auto.
        -- destruct H2 as (x & d' & -> & N & F). exists x, (d' ++ d). repeat split; auto. apply Forall_app; auto.
      * destruct H2 as [H2 H3]. split; auto. rewrite tl_app. destruct d2; [apply Forall_tl; auto|].
        apply Forall_app; auto.
      * apply Forall_app; auto.
    + destruct (S3 a G) as (b & [[Ef Gb]|Ef]); rewrite Ef; exists d; cbn [fst snd ret exit]; split; auto.
      * rewrite Gb. exact H.
      * destruct H as (x & d' & -> & N & F). split; [discriminate|exact F].
  - exists d. split; auto.
  - exists d. split; auto.
Qed.

Lemma steps_any {A B} (gb : B -> bool) (m : M A) (f : A -> M B) :
  steps any m -> (forall a, steps gb (f a)) -> steps gb (mbind m f).
Proof. intros S1 S2. eapply steps_bind; eauto. discriminate. Qed.

Lemma aget_steps l i : steps any (aget l i).
Proof. unfold aget. destruct (nth_error l i); [apply steps_ret; reflexivity|apply steps_bad]. Qed.
Lemma aput_steps l i x : steps any (aput l i x).
Proof. unfold aput. destruct (put l i x); [apply steps_ret; reflexivity|apply steps_bad]. Qed.
Lemma aputs_steps xs : forall l i, steps any (aputs l i xs).
Proof.
  induction xs as [|x xs IH]; intros; cbn; [apply steps_ret; reflexivity|].
  apply steps_any; [apply aput_steps|auto].
Qed.
Lemma close_gaps_steps n : forall i j m, steps any (close_gaps n i j m).
Proof.
  induction n as [|n IH]; intros; cbn; [apply steps_ret; reflexivity|].
  apply steps_any; [apply aget_steps|]. intros [x|]; [|apply IH].
  destruct (Nat.eqb i j); [apply IH|].
  apply steps_any; [apply aput_steps|]. intros argv. apply steps_any; [|intros; apply IH].
  destruct (mv_ins m); [|apply steps_ret; reflexivity].
  repeat (apply steps_any; [apply aget_steps || apply aput_steps|intros]). apply steps_ret; reflexivity.
Qed.
Lemma modify_args_steps k c : steps any (modify_args k c).
Proof.
  unfold modify_args. apply steps_any; [apply close_gaps_steps|]. intros [n m].
  repeat (apply steps_any; [apply aput_steps || apply aputs_steps|intros]). apply steps_ret; reflexivity.
Qed.

Section World.
Variable w : world.
Variable rp : text -> option text.
Variable k : conf.

Lemma run_cmd_steps args path : steps zero (run_cmd w args path).
Proof.
  intros h. unfold run_cmd, mbind, ask. cbv zeta beta.
  set (e := Run _ args). set (r := w h e). exists [(e, r)]. destruct (Z.ltb_spec r 0) as [L|L]; cbn.
  - split; auto. split; [discriminate|auto].
  - split; auto. unfold zero, wexit. destruct (Z.eqb_spec (Z.land (Z.shiftr r 8) 255) 0) as [Z|Z].
    + constructor; auto. cbn. auto.
    + exists (e, r), []. repeat split; auto. cbn. intros [_ Q]. contradiction.
Qed.

Lemma run_gensrc_steps args : steps zero (run_gensrc w k args).
Proof. apply run_cmd_steps. Qed.

Lemma rename_steps a b : steps zero (rename w a b).
Proof.
  intros h. unfold rename, mbind, ask, ret. exists [(Rename a b, w h (Rename a b))]. cbn. split; auto.
  destruct (Z.eqb_spec (w h (Rename a b)) 0) as [E|E]; cbn.
  - constructor; auto.
  - eexists _, []. repeat split; auto.
Qed.

Lemma copy_file_steps a b : steps zero (copy_file w a b).
Proof.
  intros h. unfold copy_file, mbind, ask, ret. exists [(Copy a b, w h (Copy a b))]. 
  destruct (Z.eqb_spec (w h (Copy a b)) 0) as [E|E]; cbn; split; auto.
  split; [discriminate|auto].
Qed.

Lemma zero_false z : zero z = false -> z =? 0 = false.
Proof. auto. Qed.

Lemma do_dbgfilter_steps f : steps zero (do_dbgfilter w k f).
Proof.
  unfold do_dbgfilter. destruct (k_dbg k) eqn:E; [apply steps_ret; reflexivity|]. rewrite <- E.
  eapply steps_bind; [apply run_gensrc_steps| |].
  - intros rv Z. unfold zero in Z. rewrite Z. apply rename_steps.
  - intros rv Z. exists rv. left. unfold zero in Z. rewrite Z. auto.
Qed.

Lemma access_steps f : forall h, snd (ask w (Access f) h) = [(Access f, w h (Access f))] ++ h.
Proof. reflexivity. Qed.

Lemma do_generate_kpatch_steps a : steps zero1 (do_generate_kpatch w k a).
Proof.
  unfold do_generate_kpatch.
  assert (S : forall (A : Type) (good : A -> bool) (f : Z -> M A) (e : text),
    (forall r, r = 0 \/ r = 2 -> steps good (f r)) -> (forall r, r <> 0 -> r <> 2 -> forall h, f r h = (Exit 129, h)) ->
    steps good (mbind (ask w (Access e)) f)).
  { intros A good f e S1 S2 h. unfold mbind, ask. set (r := w h (Access e)).
    destruct (Z.eq_dec r 0) as [E0|N0]; [|destruct (Z.eq_dec r 2) as [E2|N2]].
    3: { rewrite (S2 r N0 N2). exists [(Access e, r)]. cbn. split; auto. split; [discriminate|auto]. }
    all: destruct (S1 r ltac:(auto) ((Access e, r) :: h)) as (d & E & H);
      exists (d ++ [(Access e, r)]); rewrite E, <- app_assoc; split; [reflexivity|].
    all: assert (F : Forall fine [(Access e, r)]) by (constructor; [cbn; auto|constructor]).
    all: destruct (fst (f r ((Access e, r) :: h))) as [x|rc|]; [destruct (good x)| |].
    all: try (apply Forall_app; auto).
    all: try (destruct H as (x0 & d' & -> & N & F'); exists x0, (d' ++ [(Access e, r)]); repeat split; auto; apply Forall_app; auto).
    all: destruct H as [H1 H2]; split; auto; rewrite tl_app; destruct d; [cbn; auto|apply Forall_app; auto]. }
  apply S; clear S.
  - intros r Hr. eapply (steps_bind zero1).
    + destruct (Z.eqb_spec r 0) as [E|N].
      * eapply (steps_bind zero); [apply do_dbgfilter_steps| |].
        -- intros rv Z. apply steps_ret. exact Z.
        -- intros rv Z. eexists (rv, _). left. split; [reflexivity|]. exact Z.
      * destruct (Z.eqb_spec r 2); [apply steps_ret; reflexivity|lia].
    + intros [rv1 orig] Z. unfold zero1 in Z. cbn [fst] in *. rewrite Z. cbn [negb].
      unfold generate_pair. cbn [snd]. eapply (steps_bind zero); [apply do_dbgfilter_steps| |].
      * intros rv2 Z2. unfold zero in Z2. rewrite Z2. cbn [negb].
        eapply (steps_bind zero); [apply run_gensrc_steps| |].
        -- intros rv3 Z3. unfold zero in Z3. rewrite Z3. cbn [negb].
           eapply (steps_bind zero); [apply rename_steps| |].
           ++ intros rv4 Z4. apply steps_ret. exact Z4.
           ++ intros rv4 Z4. eexists (rv4, _). left. split; [reflexivity|exact Z4].
        -- intros rv3 Z3. exists (rv3, a). left. unfold zero in Z3. rewrite Z3. auto.
      * intros rv2 Z2. exists (rv2, a). left. unfold zero in Z2. rewrite Z2. auto.
    + intros [rv1 orig] Z. exists (rv1, a). left. unfold zero1 in Z. cbn [fst] in *. rewrite Z. auto.
  - intros r N0 N2 h. unfold mbind. destruct (Z.eqb_spec r 0); [contradiction|]. destruct (Z.eqb_spec r 2); [contradiction|].
    reflexivity.
Qed.

Lemma make_dirs_steps l : steps any (make_dirs w l).
Proof.
  induction l as [|d l IH]; cbn; [apply steps_ret; reflexivity|].
  intros h. unfold mbind, ask. set (r := w h (Mkdir d)).
  destruct ((r =? 0) || (r =? 17)) eqn:E.
  - destruct (IH ((Mkdir d, r) :: h)) as (d' & E' & H). exists (d' ++ [(Mkdir d, r)]).
    rewrite E', <- app_assoc. split; [reflexivity|].
    assert (F : Forall fine [(Mkdir d, r)]) by (constructor; [cbn; lia|constructor]).
    destruct (fst (make_dirs w l ((Mkdir d, r) :: h))); cbn in *.
    + apply Forall_app; auto.
    + destruct H as [H1 H2]. split; auto. rewrite tl_app. destruct d'; [cbn; auto|apply Forall_app; auto].
    + apply Forall_app; auto.
  - exists [(Mkdir d, r)]. cbn. split; auto. split; [discriminate|auto].
Qed.

Lemma gaf_steps o p : steps any (get_assembler_filename w rp k o p).
Proof.
  unfold get_assembler_filename. destruct (if teq p dash then o else Some p); [|apply steps_bad].
  destruct (Nat.leb path_max (length t)); [apply steps_exit; discriminate|].
  destruct (names t) as [d b]. destruct (k_asmdir k); [destruct (rp d)|].
  - cbv zeta. destruct (Nat.leb path_max _); [apply steps_exit; discriminate|].
    apply steps_any; [apply make_dirs_steps|]. intros. apply steps_ret; reflexivity.
  - apply steps_exit; discriminate.
  - cbv zeta. destruct (Nat.leb path_max _); [apply steps_exit; discriminate|]. apply steps_ret; reflexivity.
Qed.

Lemma stage_gen_steps a :
  steps zero1 (match k_stage k with Patched => do_generate_kpatch w k a | _ => ret (0, a) end).
Proof. destruct (k_stage k); try (apply steps_ret; reflexivity). apply do_generate_kpatch_steps. Qed.

Lemma compile_single_steps c : steps zero (compile_single w rp k c).
Proof.
  unfold compile_single. destruct (l_out c) as [o|]; [|apply steps_bad].
  apply steps_any. { destruct (l_action c); try apply aput_steps. apply steps_ret; reflexivity. }
  intros v1. apply steps_any; [apply gaf_steps|]. intros a.
  eapply (steps_bind zero1).
  - assert (R : steps zero1 (get v2 <- aput v1 (l_argc c) (Some (str "-o"));
               get v3 <- aput v2 (l_argc c + 1) (Some a);
               get rv <- run_cmd w (cargs v3) None; ret (rv, v3))).
    { apply steps_any; [apply aput_steps|]. intros v2. apply steps_any; [apply aput_steps|]. intros v3.
      eapply (steps_bind zero); [apply run_cmd_steps| |].
      - intros rv Z. apply steps_ret. exact Z.
      - intros rv Z. exists (rv, v3). left. split; [reflexivity|exact Z]. }
    destruct (l_action c); try exact R.
    apply steps_any; [apply aget_steps|]. intros [f|]; [|apply steps_bad].
    eapply (steps_bind zero); [apply copy_file_steps| |].
    + intros rv Z. apply steps_ret. exact Z.
    + intros rv Z. exists (rv, v1). left. split; [reflexivity|exact Z].
  - intros [rv v] Z. unfold zero1 in Z. cbn [fst] in Z. rewrite Z. cbn [negb].
    eapply (steps_bind zero1); [apply stage_gen_steps| |].
    + intros [rv1 as1] Z1. unfold zero1 in Z1. cbn [fst] in Z1. rewrite Z1. cbn [negb].
      assert (R : steps zero (
          get u1 <- aput v (l_act c) (Some (str "-c"));
          get u2 <- aput u1 (l_input c) (Some as1);
          get u3 <- aput u2 (l_argc c) (Some (str "-o"));
          get u4 <- aput u3 (l_argc c + 1) (Some o);
          get u5 <- (if Nat.eqb (l_lang c) 0 then ret u4
                     else get x <- aget u4 (l_lang c); aput u4 (l_lang c) (aslang x));
          run_cmd w (cargs u5) None)).
      { repeat (apply steps_any; [apply aput_steps|intros]).
        apply steps_any; [|intros; apply run_cmd_steps].
        destruct (Nat.eqb (l_lang c) 0); [apply steps_ret; reflexivity|].
        apply steps_any; [apply aget_steps|]. intros; apply aput_steps. }
      destruct (l_action c); try exact R. apply copy_file_steps.
    + intros [rv1 as1] Z1. exists rv1. left. unfold zero1 in Z1. cbn [fst] in Z1. rewrite Z1. auto.
  - intros [rv v] Z. exists rv. left. unfold zero1 in Z. cbn [fst] in Z. rewrite Z. auto.
Qed.

Lemma plain_args_steps n : forall j argv ins, steps any (plain_args n j argv ins).
Proof.
  induction n as [|n IH]; intros; cbn; [apply steps_ret; reflexivity|].
  apply steps_any; [apply aget_steps|]. intros f. apply steps_any.
  { destruct f; [apply steps_ret; reflexivity|]. apply steps_any; [apply aget_steps|]. intros; apply steps_ret; reflexivity. }
  intros r. apply steps_any; [apply IH|]. intros; apply steps_ret; reflexivity.
Qed.

Lemma get_file_type_exit l f rc : get_file_type l f <> Exit rc.
Proof.
  unfold get_file_type. destruct (teq f dash); [destruct l; congruence|].
  destruct (teq f (str "/dev/null")); [congruence|]. destruct (after_last 46 f); congruence.
Qed.

Lemma one_input_steps c plain f : steps zero1 (one_input w rp k c plain f).
Proof.
  unfold one_input. apply steps_any; [apply gaf_steps|]. intros a. cbv zeta.
  apply steps_any. { destruct (teq f dash); [apply aget_steps|apply steps_ret; reflexivity]. }
  intros lang. destruct (get_file_type lang f) as [t|rc|] eqn:E.
  2: { exfalso. exact (get_file_type_exit _ _ _ E). } 2: apply steps_bad.
  set (rest := mbind _ _).
  assert (R : steps zero1 rest).
  { eapply (steps_bind zero).
    - destruct t; try apply run_cmd_steps; try apply copy_file_steps; apply steps_ret; reflexivity.
    - intros rv Z. unfold zero in Z. rewrite Z. cbn [negb]. apply stage_gen_steps.
    - intros rv Z. exists (rv, f). left. unfold zero in Z. rewrite Z. auto. }
  destruct t, (k_asm k); try exact R; apply steps_ret; reflexivity.
Qed.

Lemma each_input_steps n : forall i c plain ins argv, steps zero1 (each_input w rp k n i c plain ins argv).
Proof.
  induction n as [|n IH]; intros; cbn; [apply steps_ret; reflexivity|].
  apply steps_any; [apply aget_steps|]. intros [f|]; [|apply IH].
  eapply (steps_bind zero1); [apply one_input_steps| |].
  - intros [rv f'] Z. unfold zero1 in Z. cbn [fst] in Z. rewrite Z. cbn [negb].
    apply steps_any; [apply aput_steps|]. intros; apply IH.
  - intros [rv f'] Z. exists (rv, argv). left. unfold zero1 in Z. cbn [fst] in Z. rewrite Z. auto.
Qed.

Lemma build_multiple_steps c : steps zero (build_multiple w rp k c).
Proof.
  unfold build_multiple. destruct (l_inputs c); [|apply steps_bad].
  apply steps_any; [apply plain_args_steps|]. intros plain.
  destruct (Nat.leb _ _); [apply steps_exit; discriminate|].
  eapply (steps_bind zero1); [apply each_input_steps| |].
  - intros [rv argv] Z. unfold zero1 in Z. cbn [fst] in Z. rewrite Z. cbn [negb].
    apply steps_any; [|intros; apply run_cmd_steps].
    destruct (l_out c); [|apply steps_ret; reflexivity].
    apply steps_any; [apply aput_steps|]. intros; apply aput_steps.
  - intros [rv argv] Z. exists rv. left. unfold zero1 in Z. cbn [fst] in Z. rewrite Z. auto.
Qed.

Definition real_action (a : action) : bool :=
  match a with APass | ACompile | AAsm | AAsmCpp | AGen | AMulti => true | _ => false end.

Lemma emulate_cc_steps c : real_action (l_action c) = true -> steps zero (emulate_cc w rp k c).
Proof.
  intros R. unfold emulate_cc.
  assert (P : forall a, l_action c = a -> a <> APass -> steps zero (
    get c' <- modify_args k c;
    match l_action c' with
    | ACompile | AAsm | AAsmCpp | AGen => compile_single w rp k c'
    | AMulti => build_multiple w rp k c'
    | _ => ret 129
    end)).
  { intros a Ea Na h.
    assert (K : forall h0 c' h', modify_args k c h0 = (Val c', h') -> l_action c' = l_action c).
    { intros h0 c' h'. unfold modify_args, mbind. clear.
      repeat match goal with |- context[match ?x with _ => _ end] => destruct x eqn:?; try discriminate end.
      unfold ret. intros E. inversion E. reflexivity. }
    destruct (modify_args_steps k c h) as (d & E & H). unfold mbind.
    destruct (modify_args k c h) as [[c'|rc|] h'] eqn:Em; cbn [fst snd] in *; subst h'.
    2, 3: exists d; split; auto.
    apply K in Em. rewrite Em, Ea. subst a.
    assert (Q : forall m : M Z, steps zero m -> exists d0, snd (m (d ++ h)) = d0 ++ h /\
      match fst (m (d ++ h)) with
      | Val a => if zero a then Forall fine d0 else exists x d', d0 = x :: d' /\ ~ fine x /\ Forall fine d'
      | Exit v => v <> 0 /\ Forall fine (tl d0)
      | Bad => Forall fine d0
      end).
    { intros m S. refine (steps_any zero (fun h0 => (Val tt, d ++ h0)) (fun _ => m) _ _ h).
      - intros h0. exists d. cbn in *. split; auto.
      - intros _. exact S. }
    destruct (l_action c); try discriminate; try contradiction; try (apply Q; apply compile_single_steps).
    apply Q. apply build_multiple_steps. }
  destruct (l_action c) eqn:Ea; try discriminate; try (apply (P _ eq_refl); discriminate).
  intros h. exists [(Exec (k_real k) (cargs (l_argv c)), w h (Exec (k_real k) (cargs (l_argv c))))]. cbn. split; auto.
  eexists _, []. repeat split; auto.
Qed.
End World.

Lemma init_args_action k args c : init_args k args = Val c -> real_action (l_action c) = true.
Proof.
  unfold init_args. cbv zeta. set (sm := scan_args _ _ _). set (argv := Some (k_real k) :: _).
  assert (D : real_action (decide (sc_action (fst sm)) (sc_ninput (fst sm))) = true).
  { unfold decide. destruct (sc_action (fst sm)); auto; destruct (Nat.ltb _ _); auto. }
  set (a3 := decide _ _) in *. set (o := out_file _ _ _).
  assert (P : real_action (pass_null o a3) = true).
  { unfold pass_null. destruct o as [o|]; [destruct (teq o _)|]; auto. }
  destruct (k_stage k); [| |intros E; inversion E; reflexivity].
  all: intros E; unfold obind in E; set (a6 := typed _ _ _ _) in E.
  all: assert (Q : forall a, a6 = Val a -> real_action a = true).
  1, 3: subst a6; intros a; unfold typed, obind; destruct (pass_null o a3); try discriminate;
    try (intros Ea; inversion Ea; reflexivity); destruct (nth _ argv None); [|discriminate];
    destruct (get_file_type _ _) as [ty| |]; try discriminate;
    intros Ea; inversion Ea; subst; unfold by_type; destruct ty; try destruct (k_asm k); reflexivity.
  all: destruct a6 as [a|rc|]; try discriminate; specialize (Q a eq_refl);
    destruct a; try discriminate; inversion E; reflexivity.
Qed.

(** ** The scan of the command line *)
Lemma teq_eq a b : teq a b = true <-> a = b.
Proof. apply list_eqb_eq. Qed.
Lemma teq_refl a : teq a a = true.
Proof. apply teq_eq. reflexivity. Qed.
Lemma teq_neq a b : a <> b -> teq a b = false.
Proof. intros N. destruct (teq a b) eqn:E; auto. apply teq_eq in E. contradiction. Qed.

Definition slots (x : wd) : list (option (tag * text)) :=
  match x with WOut1 _ => [None] | WOut2 _ => [None; None] | x => map Some (tagged x) end.
Definition all_slots (ws : list wd) : list (option (tag * text)) := flat_map slots ws.
Definition marks (x : wd) : list mark :=
  match x with
  | WFlag _ => [Keep] | WTwo _ _ => [Keep; Keep] | WIn _ => [Input] | WOut1 _ => [Clear] | WOut2 _ => [Clear; Clear]
  | WAct _ => [Keep] | WLang1 _ => [Keep] | WLang2 _ => [Keep; Keep]
  end.
Definition eff (x : wd) (i : nat) (s : scan) : scan :=
  match x with
  | WFlag _ | WTwo _ _ => s
  | WIn _ => add_input i s
  | WOut1 o | WOut2 o => set_out (Some o) s
  | WAct c => set_act (if c then ACompile else AGen) i s
  | WLang1 _ => set_lang i s
  | WLang2 _ => set_lang (S i) s
  end.

Lemma word_flag i t s : plain_flag t -> word i t s = (s, false, Keep).
Proof.
  intros (c & r & -> & Nc & N2 & Nv & NM). cbn [In] in Nc.
  change (str "xcSEoeT") with [120; 99; 83; 69; 111; 101; 84] in Nc. cbn [In] in Nc.
  assert (E : forall x, In x two_word -> 45 :: c :: r <> x) by (intros x I C; subst; contradiction).
  unfold word.
  destruct (Z.eqb_spec c 73) as [->|].
  { destruct r; [exfalso; apply (E (str "-I")); [cbn; auto 10|reflexivity]|reflexivity]. }
  destruct (Z.eqb_spec c 120); [exfalso; lia|]. destruct (Z.eqb_spec c 99); [exfalso; lia|]. destruct (Z.eqb_spec c 83); [exfalso; lia|].
  destruct (Z.eqb_spec c 69); [exfalso; lia|]. destruct (Z.eqb_spec c 111); [exfalso; lia|].
  destruct (Z.eqb_spec c 77) as [->|].
  { destruct r as [|x r]; [reflexivity|]. specialize (NM x r eq_refl).
    change (str "FTQ") with [70; 84; 81] in NM. cbn [In] in NM.
    destruct (Z.eqb_spec x 70); [exfalso; lia|]. destruct (Z.eqb_spec x 84); [exfalso; lia|]. destruct (Z.eqb_spec x 81); [exfalso; lia|].
    reflexivity. }
  destruct (Z.eqb_spec c 105) as [->|].
  { rewrite (teq_neq r (str "nclude")), (teq_neq r (str "system")), (teq_neq r (str "quote")); [reflexivity| | |];
      intros ->; [apply (E (str "-iquote"))|apply (E (str "-isystem"))|apply (E (str "-include"))];
      cbn; auto 12. }
  destruct (Z.eqb_spec c 101); [exfalso; lia|]. destruct (Z.eqb_spec c 84); [exfalso; lia|]. cbn [orb].
  destruct (Z.eqb_spec c 45) as [->|]; [|reflexivity].
  rewrite teq_neq; [reflexivity|]. intros ->. apply Nv. reflexivity.
Qed.

Lemma word_in i f s : f = str "-" \/ hd 0 f <> 45 -> word i f s = (add_input i s, false, Input).
Proof.
  intros [->|H]; [reflexivity|]. destruct f as [|c r]; [reflexivity|]. cbn in H. unfold word.
  destruct c as [|p|p]; auto. repeat (destruct p as [p|p|]; auto). contradiction.
Qed.

Lemma word_two i t s : In t two_word -> word i t s = (s, true, Keep) /\ is_o t = false.
Proof. intros K. unfold two_word in K. cbn [In] in K. repeat (destruct K as [<-|K]; [split; reflexivity|]). destruct K. Qed.

Lemma scan_word x : wd_ok x -> forall i rest s,
  scan_args i (spell x ++ rest) s =
  (fst (scan_args (i + length (spell x)) rest (eff x i s)), marks x ++ snd (scan_args (i + length (spell x)) rest (eff x i s))).
Proof.
  intros K i rest s. destruct x as [t|t v|f|o|o|c|l|l]; cbn [wd_ok] in K; cbn [spell app length].
  - cbn [scan_args]. rewrite word_flag by auto. rewrite Nat.add_1_r. cbn [eff marks].
    destruct (scan_args (S i) rest s); reflexivity.
  - replace (i + 2)%nat with (S (S i)) by lia.
    destruct (word_two i t s K) as [E1 E2]. cbn [scan_args]. rewrite E1, E2. cbn [eff marks].
    destruct (scan_args (S (S i)) rest s); reflexivity.
  - cbn [scan_args]. rewrite word_in by auto. rewrite Nat.add_1_r. cbn [eff marks].
    destruct (scan_args (S i) rest _); reflexivity.
  - destruct o as [|c o]; [contradiction|]. rewrite Nat.add_1_r. cbn [eff marks]. change (str "-o" ++ c :: o) with (45 :: 111 :: c :: o).
    cbn [scan_args]. unfold word. cbn. destruct (scan_args (S i) rest _); reflexivity.
  - replace (i + 2)%nat with (S (S i)) by lia. cbn [eff marks]. change (str "-o") with [45; 111].
    cbn [scan_args]. unfold word. cbn. destruct (scan_args (S (S i)) rest _); reflexivity.
  - rewrite Nat.add_1_r. cbn [eff marks]. destruct c; cbn [act_word]; cbn [scan_args].
    + change (str "-c") with [45; 99]. unfold word. cbn. destruct (scan_args (S i) rest _); reflexivity.
    + change (str "-S") with [45; 83]. unfold word. cbn. destruct (scan_args (S i) rest _); reflexivity.
  - destruct l as [|c l]; [contradiction|]. rewrite Nat.add_1_r. cbn [eff marks]. change (str "-x" ++ c :: l) with (45 :: 120 :: c :: l).
    cbn [scan_args]. unfold word. cbn. destruct (scan_args (S i) rest _); reflexivity.
  - replace (i + 2)%nat with (S (S i)) by lia. cbn [eff marks]. change (str "-x") with [45; 120].
    cbn [scan_args]. unfold word. cbn. destruct (scan_args (S (S i)) rest _); reflexivity.
Qed.

Lemma slots_len x : length (slots x) = length (spell x).
Proof. destruct x; reflexivity. Qed.
Lemma marks_len x : length (marks x) = length (spell x).
Proof. destruct x; reflexivity. Qed.
Lemma all_slots_len ws : length (all_slots ws) = length (spell_all ws).
Proof.
  induction ws as [|x ws IH]; auto. unfold all_slots, spell_all in *. cbn [flat_map]. rewrite !app_length, slots_len, IH.
  reflexivity.
Qed.

Definition in_slot (x : option (tag * text)) : option text := match x with Some (TIn, f) => Some f | _ => None end.

Lemma zip_app {A} (f : mark -> text -> A) ms : forall l ms' l', length ms = length l ->
  zip_marks f (ms ++ ms') (l ++ l') = zip_marks f ms l ++ zip_marks f ms' l'.
Proof.
  induction ms as [|m ms IH]; intros [|a l] ms' l' L; try discriminate; [reflexivity|].
  cbn. rewrite IH by (cbn in L; lia). reflexivity.
Qed.

Lemma marks_argv x : zip_marks apply_mark (marks x) (spell x) = map (option_map snd) (slots x).
Proof. destruct x; reflexivity. Qed.
Lemma marks_ins x : zip_marks input_mark (marks x) (spell x) = map in_slot (slots x).
Proof. destruct x; reflexivity. Qed.

Fixpoint effs (ws : list wd) (i : nat) (s : scan) : scan :=
  match ws with [] => s | x :: r => effs r (i + length (spell x)) (eff x i s) end.

Lemma scan_all ws : Forall wd_ok ws -> forall i s,
  scan_args i (spell_all ws) s = (effs ws i s, flat_map marks ws).
Proof.
  induction 1 as [|x ws K _ IH]; intros i s; [reflexivity|].
  unfold spell_all. cbn [flat_map]. rewrite scan_word by auto. fold (spell_all ws). rewrite IH. reflexivity.
Qed.

Lemma zip_argv ws : zip_marks apply_mark (flat_map marks ws) (spell_all ws) = map (option_map snd) (all_slots ws).
Proof.
  induction ws as [|x ws IH]; [reflexivity|]. unfold spell_all, all_slots in *. cbn [flat_map].
  rewrite zip_app by apply marks_len. rewrite marks_argv, IH, map_app. reflexivity.
Qed.
Lemma zip_ins ws : zip_marks input_mark (flat_map marks ws) (spell_all ws) = map in_slot (all_slots ws).
Proof.
  induction ws as [|x ws IH]; [reflexivity|]. unfold spell_all, all_slots in *. cbn [flat_map].
  rewrite zip_app by apply marks_len. rewrite marks_ins, IH, map_app. reflexivity.
Qed.

(* What is found. *)
Lemma effs_out ws : forall i s, sc_out (effs ws i s) = last (map Some (outs ws)) (sc_out s).
Proof.
  induction ws as [|x ws IH]; intros; [reflexivity|]. cbn [effs]. rewrite IH.
  assert (L : forall (l : list (option text)) a b, l <> [] -> last l a = last l b).
  { induction l as [|y l IHl]; intros a b N; [contradiction|]. destruct l; [reflexivity|]. apply (IHl a b). discriminate. }
  unfold outs. cbn [flat_map]. fold (outs ws). rewrite map_app.
  destruct x; cbn [eff map app]; try reflexivity.
  all: cbn [set_out sc_out]; destruct (map Some (outs ws)) as [|y l]; [reflexivity|];
    change (last (Some o :: y :: l) (sc_out s)) with (last (y :: l) (sc_out s)); apply L; discriminate.
Qed.

Lemma effs_n ws : forall i s, sc_ninput (effs ws i s) = (sc_ninput s + length (ins ws))%nat.
Proof.
  induction ws as [|x ws IH]; intros; [cbn; lia|]. cbn [effs]. rewrite IH. unfold ins. cbn [flat_map]. rewrite app_length.
  fold (ins ws). destruct x; cbn; lia.
Qed.

Lemma effs_action0 ws : acts ws = [] -> forall i s,
  sc_action (effs ws i s) = sc_action s /\ sc_act (effs ws i s) = sc_act s.
Proof.
  induction ws as [|x ws IH]; intros E i s; [auto|]. unfold acts in E. cbn [flat_map] in E. fold (acts ws) in E.
  apply app_eq_nil in E. destruct E as [E1 E2]. cbn [effs]. destruct (IH E2 (i + length (spell x))%nat (eff x i s)) as [-> ->].
  destruct x; try discriminate; auto.
Qed.
Lemma effs_lang0 ws : langs ws = [] -> forall i s, sc_lang (effs ws i s) = sc_lang s.
Proof.
  induction ws as [|x ws IH]; intros E i s; [auto|]. unfold langs in E. cbn [flat_map] in E. fold (langs ws) in E.
  apply app_eq_nil in E. destruct E as [E1 E2]. cbn [effs]. rewrite (IH E2). destruct x; try discriminate; auto.
Qed.
Lemma effs_in0 ws : ins ws = [] -> forall i s, sc_input (effs ws i s) = sc_input s.
Proof.
  induction ws as [|x ws IH]; intros E i s; [auto|]. unfold ins in E. cbn [flat_map] in E. fold (ins ws) in E.
  apply app_eq_nil in E. destruct E as [E1 E2]. cbn [effs]. rewrite (IH E2). destruct x; try discriminate; auto.
Qed.

(* The only word of a kind, and its place. *)
Definition at_only (t : tag) (v : text) (sl : list (option (tag * text))) (p : nat) : Prop :=
  nth_error sl p = Some (Some (t, v)) /\ forall q v', nth_error sl q = Some (Some (t, v')) -> q = p.

Definition no_tag (t : tag) (sl : list (option (tag * text))) : Prop := forall q v, nth_error sl q <> Some (Some (t, v)).

Lemma at_only_skip t v a b p : no_tag t a -> at_only t v b p -> at_only t v (a ++ b) (length a + p).
Proof.
  intros N [E U]. split.
  - rewrite nth_error_app2 by lia. replace (length a + p - length a)%nat with p by lia. exact E.
  - intros q v' Q. destruct (Nat.lt_ge_cases q (length a)) as [L|L].
    + rewrite nth_error_app1 in Q by auto. destruct (N _ _ Q).
    + rewrite nth_error_app2 in Q by auto. apply U in Q. lia.
Qed.
Lemma at_only_here t v a b p : at_only t v a p -> no_tag t b -> at_only t v (a ++ b) p.
Proof.
  intros [E U] N. assert (p < length a)%nat by (apply nth_error_Some; congruence). split.
  - rewrite nth_error_app1 by auto. exact E.
  - intros q v' Q. destruct (Nat.lt_ge_cases q (length a)) as [L|L].
    + rewrite nth_error_app1 in Q by auto. eauto.
    + rewrite nth_error_app2 in Q by auto. destruct (N _ _ Q).
Qed.
Lemma no_tag_app t a b : no_tag t a -> no_tag t b -> no_tag t (a ++ b).
Proof.
  intros Na Nb q v Q. destruct (Nat.lt_ge_cases q (length a)) as [L|L].
  - rewrite nth_error_app1 in Q by auto. exact (Na _ _ Q).
  - rewrite nth_error_app2 in Q by auto. exact (Nb _ _ Q).
Qed.

Ltac finite_slots := let q := fresh "q" in let v := fresh "v" in intros q v; destruct q as [|[|[|q]]]; cbn; discriminate.

Lemma no_act ws : acts ws = [] -> no_tag TAct (all_slots ws).
Proof.
  induction ws as [|x ws IH]; intros E; [intros [|q] v; discriminate|]. unfold acts in E. cbn [flat_map] in E. fold (acts ws) in E.
  apply app_eq_nil in E. destruct E as [E1 E2]. unfold all_slots. cbn [flat_map]. apply no_tag_app; [|apply IH; auto].
  destruct x; try discriminate; finite_slots.
Qed.
Lemma no_lang ws : langs ws = [] -> no_tag TLang (all_slots ws).
Proof.
  induction ws as [|x ws IH]; intros E; [intros [|q] v; discriminate|]. unfold langs in E. cbn [flat_map] in E. fold (langs ws) in E.
  apply app_eq_nil in E. destruct E as [E1 E2]. unfold all_slots. cbn [flat_map]. apply no_tag_app; [|apply IH; auto].
  destruct x; try discriminate; finite_slots.
Qed.
Lemma no_in ws : ins ws = [] -> no_tag TIn (all_slots ws).
Proof.
  induction ws as [|x ws IH]; intros E; [intros [|q] v; discriminate|]. unfold ins in E. cbn [flat_map] in E. fold (ins ws) in E.
  apply app_eq_nil in E. destruct E as [E1 E2]. unfold all_slots. cbn [flat_map]. apply no_tag_app; [|apply IH; auto].
  destruct x; try discriminate; finite_slots.
Qed.

Lemma effs_act ws c : acts ws = [c] -> forall i s, exists p,
  sc_action (effs ws i s) = (if c then ACompile else AGen) /\ sc_act (effs ws i s) = (i + p)%nat /\
  at_only TAct (act_word c) (all_slots ws) p.
Proof.
  induction ws as [|x ws IH]; intros E i s; [discriminate|]. unfold acts in E. cbn [flat_map] in E. fold (acts ws) in E.
  unfold all_slots. cbn [flat_map effs]. fold (all_slots ws).
  destruct x as [t|t v|f|o|o|b|l|l]; cbn [app] in E.
  6: { inversion E; subst. destruct (effs_action0 ws ltac:(auto) (i + 1)%nat (set_act (if c then ACompile else AGen) i s)) as [Q1 Q2].
       exists 0%nat. cbn [spell length eff]. rewrite Q1, Q2. cbn [sc_action sc_act set_act]. rewrite Nat.add_0_r. split; [auto|split; [auto|]].
       apply (at_only_here TAct (act_word c) [Some (TAct, act_word c)] _ 0); [split; [reflexivity|]|apply no_act; auto].
       intros [|[|q]] v'; cbn; auto; discriminate. }
  all: match goal with |- exists p, sc_action (effs _ (?i + length (spell ?x)) (eff ?x ?i ?s)) = _ /\ _ =>
    destruct (IH E (i + length (spell x))%nat (eff x i s)) as (p & P1 & P2 & P3); exists (length (slots x) + p)%nat;
    rewrite P1, P2; split; [reflexivity|split; [rewrite slots_len; lia|]] end.
  all: apply at_only_skip; auto; finite_slots.
Qed.
Lemma effs_in ws f : ins ws = [f] -> forall i s, exists p,
  sc_input (effs ws i s) = (i + p)%nat /\ at_only TIn f (all_slots ws) p.
Proof.
  induction ws as [|x ws IH]; intros E i s; [discriminate|]. unfold ins in E. cbn [flat_map] in E. fold (ins ws) in E.
  unfold all_slots. cbn [flat_map effs]. fold (all_slots ws).
  destruct x as [t|t v|g|o|o|b|l|l]; cbn [app] in E.
  3: { inversion E; subst. exists 0%nat. cbn [spell length eff]. rewrite effs_in0 by auto. cbn [sc_input add_input].
       rewrite Nat.add_0_r. split; auto.
       apply (at_only_here TIn f [Some (TIn, f)] _ 0); [split; [reflexivity|]|apply no_in; auto].
       intros [|[|q]] v'; cbn; auto; discriminate. }
  all: match goal with |- exists p, sc_input (effs _ (?i + length (spell ?x)) (eff ?x ?i ?s)) = _ /\ _ =>
    destruct (IH E (i + length (spell x))%nat (eff x i s)) as (p & P1 & P2); exists (length (slots x) + p)%nat;
    rewrite P1; split; [rewrite slots_len; lia|] end.
  all: apply at_only_skip; auto; finite_slots.
Qed.
Definition lang_word (v l : text) : Prop := v = str "-x" ++ l \/ v = l /\ hd 0 l <> 45.
Lemma effs_lang ws l : Forall wd_ok ws -> langs ws = [l] -> forall i s, exists p v,
  sc_lang (effs ws i s) = (i + p)%nat /\ lang_word v l /\ at_only TLang v (all_slots ws) p.
Proof.
  induction ws as [|x ws IH]; intros K E i s; [discriminate|]. unfold langs in E. cbn [flat_map] in E. fold (langs ws) in E.
  inversion K as [|? ? Kx Kw]; subst.
  unfold all_slots. cbn [flat_map effs]. fold (all_slots ws).
  destruct x as [t|t v|f|o|o|b|m|m]; cbn [app] in E.
  7: { inversion E; subst. exists 0%nat, (str "-x" ++ l). cbn [spell length eff]. rewrite effs_lang0 by auto. cbn [sc_lang set_lang].
       rewrite Nat.add_0_r. split; [auto|split; [left; reflexivity|]].
       apply (at_only_here TLang (str "-x" ++ l) [Some (TLang, str "-x" ++ l)] _ 0); [split; [reflexivity|]|apply no_lang; auto].
       all: intros [|[|q]] v'; cbn; auto; discriminate. }
  7: { inversion E; subst. exists 1%nat, l. cbn [spell length eff]. rewrite effs_lang0 by auto. cbn [sc_lang set_lang].
       rewrite Nat.add_1_r. cbn in Kx. split; [auto|split; [right; auto|]].
       apply (at_only_here TLang l [Some (TPlain, str "-x"); Some (TLang, l)] _ 1); [split; [reflexivity|]|apply no_lang; auto].
       all: intros [|[|[|q]]] v'; cbn; auto; discriminate. }
  all: match goal with |- exists p v, sc_lang (effs _ (?i + length (spell ?x)) (eff ?x ?i ?s)) = _ /\ _ =>
    destruct (IH Kw E (i + length (spell x))%nat (eff x i s)) as (p & v0 & P1 & P2 & P3); exists (length (slots x) + p)%nat, v0;
    rewrite P1; split; [rewrite slots_len; lia|split; [exact P2|]] end.
  all: apply at_only_skip; auto; finite_slots.
Qed.
