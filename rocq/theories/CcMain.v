(* Proofs about the compiler wrapper: whole runs. *)
From Coq Require Import ZArith List Bool String Sorted Lia.
From Verif Require Import Base BaseProofs StorageModel TextModel CcModel CcSpec CcProofs CcRun.
Import ListNotations.
Open Scope Z_scope.
Open Scope list_scope.

Definition dropslot (k : conf) (s : option (tag * text)) : option (tag * text) :=
  match s with Some x => if dropped k (snd x) then None else Some x | None => None end.

Lemma squeeze_app {A} (a b : list (option A)) : squeeze (a ++ b) = squeeze a ++ squeeze b.
Proof. induction a as [|[x|] a IH]; cbn; auto. rewrite IH. reflexivity. Qed.
Lemma squeeze_filter k l : squeeze (map (dropslot k) (map Some l)) = filter (fun x => negb (dropped k (snd x))) l.
Proof. induction l as [|x l IH]; cbn; auto. destruct (dropped k (snd x)); cbn; rewrite IH; reflexivity. Qed.
Lemma line_squeeze k ws : squeeze (map (dropslot k) (all_slots ws)) = line k ws.
Proof.
  unfold line, all_slots. induction ws as [|x ws IH]; [reflexivity|]. cbn [flat_map].
  rewrite map_app, squeeze_app, IH, filter_app. f_equal.
  destruct x; try (cbn [slots]; rewrite squeeze_filter; reflexivity); reflexivity.
Qed.

Lemma squeeze_map {A B} (f : A -> B) l : squeeze (map (option_map f) l) = map f (squeeze l).
Proof. induction l as [|[x|] l IH]; cbn; auto. rewrite IH. reflexivity. Qed.
Lemma track_map {A B} (f : A -> B) l : forall i j p, track i j (map (option_map f) l) p = track i j l p.
Proof. induction l as [|[x|] l IH]; intros; cbn; auto. Qed.

Definition words_ok (k : conf) (ws : list wd) : Prop :=
  sorted_words (k_remove k) /\ Forall str_ok (k_remove k) /\ Forall str_ok (spell_all ws).

Lemma tagged_spelled ws x : In (Some x) (all_slots ws) -> In (snd x) (spell_all ws).
Proof.
  unfold all_slots, spell_all. rewrite !in_flat_map. intros (y & I & H). exists y. split; auto.
  destruct y; cbn in *; repeat (destruct H as [H|H]; [try discriminate; inversion H; subst; cbn; auto|]); tauto.
Qed.

Lemma cleared_slots k ws : words_ok k ws ->
  map (cleared (k_remove k)) (map (option_map snd) (all_slots ws)) = map (option_map snd) (map (dropslot k) (all_slots ws)).
Proof.
  intros (S & F & W). rewrite !map_map. apply map_ext_in. intros [x|] I; [|reflexivity]. cbn [option_map cleared dropslot].
  assert (str_ok (snd x)) as O by (rewrite Forall_forall in W; apply W; apply tagged_spelled; auto).
  rewrite removable_ok by auto. unfold dropped. change is_option with optionb.
  destruct (optionb (snd x) && _); reflexivity.
Qed.

Definition in_tag (x : tag * text) : option text := match fst x with TIn => Some (snd x) | _ => None end.

Lemma in_not_dropped k ws f : Forall wd_ok ws -> In (Some (TIn, f)) (all_slots ws) -> dropped k f = false.
Proof.
  intros K. unfold all_slots. rewrite in_flat_map. intros (y & I & H). rewrite Forall_forall in K. specialize (K y I).
  destruct y; cbn in H; repeat (destruct H as [H|H]; [try discriminate; inversion H; subst|]); try tauto.
  cbn in K. unfold dropped. destruct K as [->|K]; [reflexivity|].
  assert (optionb f = false) as ->; [|reflexivity].
  destruct f as [|c [|d r]]; cbn in *; auto; destruct c as [|c|c]; auto; repeat (destruct c as [c|c|]; auto); contradiction.
Qed.

Lemma in_aligned k sl : (forall f, In (Some (TIn, f)) sl -> dropped k f = false) ->
  aligned (map (option_map snd) (map (dropslot k) sl)) (map in_slot sl) /\
  keep (map (option_map snd) (map (dropslot k) sl)) (map in_slot sl) = map in_tag (squeeze (map (dropslot k) sl)).
Proof.
  induction sl as [|s sl IH]; intros H; [split; [constructor|reflexivity]|].
  destruct IH as [A E]; [intros; apply H; right; auto|]. cbn [map].
  destruct s as [[t f]|]; cbn [dropslot snd].
  - destruct (dropped k f) eqn:D; cbn [option_map keep squeeze map].
    + split; [|exact E]. constructor; [|exact A]. intros _. cbn. destruct t; auto.
      rewrite H in D by (left; reflexivity). discriminate.
    + split; [constructor; [discriminate|exact A]|]. rewrite E. destruct t; reflexivity.
  - split; [constructor; auto|exact E].
Qed.

Lemma cleared_none rm n : map (cleared rm) (repeat None n) = repeat None n.
Proof. induction n as [|n IH]; cbn [repeat map cleared]; [reflexivity|]. f_equal. exact IH. Qed.

Definition modified (k : conf) (c c' : cmdl) (sl : list (option (tag * text))) : Prop :=
  exists R, c' = {| l_action := l_action c;
    l_argv := (Some (k_real k) :: map Some (map snd (squeeze sl) ++ k_append k)) ++ None :: None :: None :: R;
    l_argc := (1 + length (squeeze sl) + length (k_append k))%nat; l_inputs := l_inputs c'; l_ninputs := l_ninputs c;
    l_input := track 1 1 sl (l_input c); l_act := track 1 1 sl (l_act c); l_lang := track 1 1 sl (l_lang c);
    l_out := l_out c |}.

Lemma modify_run k c ws h : words_ok k ws -> Forall wd_ok ws ->
  l_argv c = Some (k_real k) :: map (option_map snd) (all_slots ws) ++ [None] ++ repeat None (length (k_append k) + 2) ->
  l_argc c = S (length (spell_all ws)) ->
  (l_inputs c = None \/ l_inputs c = Some (None :: map in_slot (all_slots ws))) ->
  exists c', modify_args k c h = (Val c', h) /\ modified k c c' (map (dropslot k) (all_slots ws)) /\
    match l_inputs c with
    | None => l_inputs c' = None
    | Some _ => exists K, l_inputs c' = Some (None :: map in_tag (line k ws) ++ K) /\ Forall (fun x => x = None) K /\
                  (length K + length (line k ws) = length (spell_all ws))%nat
    end.
Proof.
  intros W KO Ev En Hi. unfold modify_args. rewrite Ev.
  set (T := [None] ++ repeat None (length (k_append k) + 2)) in *.
  rewrite map_app, cleared_slots by auto. set (sl := map (dropslot k) (all_slots ws)) in *.
  assert (ET : map (cleared (k_remove k)) T = T).
  { subst T. cbn. f_equal. apply cleared_none. }
  rewrite ET. rewrite En. cbn [Nat.sub]. rewrite Nat.sub_0_r.
  set (xs := map (option_map snd) sl).
  assert (Lx : length xs = length (spell_all ws)) by (subst xs sl; rewrite !map_length; apply all_slots_len).
  assert (Sx : squeeze xs = map snd (squeeze sl)) by apply squeeze_map.
  assert (Lq : (length (squeeze sl) <= length xs)%nat).
  { rewrite <- (map_length snd), <- Sx. apply squeeze_len. }
  destruct (in_aligned k (all_slots ws)) as [AL KE]. { intros f I. eapply in_not_dropped; eauto. }
  fold sl in AL, KE. fold xs in AL, KE.
  set (ins := match l_inputs c with None => None | Some _ => Some ([None : option text], map in_slot (all_slots ws), @nil (option text)) end).
  set (m := {| mv_argv := _ |}).
  destruct (close_gaps_run xs (length (spell_all ws)) 1 1 [Some (k_real k)] [] T m h ins) as (m' & J' & R & V & LJ & P1 & P2 & P3 & Hi').
  { auto. } { reflexivity. } { reflexivity. } { reflexivity. }
  { subst ins m. cbn [mv_ins]. destruct Hi as [->| ->]; [reflexivity|]. split; [reflexivity|]. split; [exact AL|].
    exists []. cbn. rewrite app_nil_r. auto. }
  erewrite bind_val by exact R. cbv beta iota.
  rewrite Sx, map_length in *. rewrite V. cbn [length] in LJ. rewrite Nat.add_0_l in LJ.
  set (q := squeeze sl) in *.
  assert (LZ : (length (J' ++ T) >= length (k_append k) + 3)%nat).
  { rewrite app_length. subst T. cbn [app length]. rewrite repeat_length. lia. }
  set (P := [Some (k_real k)] ++ map Some (map snd q)).
  assert (LP : length P = (1 + length q)%nat) by (subst P; cbn; rewrite !map_length; reflexivity).
  assert (EP : [Some (k_real k)] ++ map Some (map snd q) ++ J' ++ T = P ++ J' ++ T) by (subst P; rewrite <- app_assoc; reflexivity).
  rewrite EP. destruct (J' ++ T) as [|z Z] eqn:EZ; [cbn in LZ; lia|].
  erewrite bind_val by (apply aput_at; symmetry; exact LP).
  erewrite bind_val by (rewrite <- LP; apply aputs_run; cbn [length] in *; lia).
  pose proof (skipn_length (length (k_append k)) (None :: Z)) as LS. cbn [length] in LS, LZ.
  destruct (skipn (length (k_append k)) (None :: Z)) as [|z1 [|z2 [|z3 R3]]]; cbn [length] in LS; try lia.
  set (A := map Some (k_append k)).
  assert (LA : length A = length (k_append k)) by apply map_length.
  erewrite bind_val.
  2: { replace (P ++ A ++ z1 :: z2 :: z3 :: R3) with ((P ++ A ++ [z1; z2]) ++ z3 :: R3) by (rewrite <- !app_assoc; reflexivity).
       apply aput_at. rewrite !app_length, LP, LA. cbn. lia. }
  erewrite bind_val.
  2: { replace ((P ++ A ++ [z1; z2]) ++ None :: R3) with ((P ++ A ++ [z1]) ++ z2 :: None :: R3) by (rewrite <- !app_assoc; reflexivity).
       apply aput_at. rewrite !app_length, LP, LA. cbn. lia. }
  erewrite bind_val.
  2: { replace ((P ++ A ++ [z1]) ++ None :: None :: R3) with ((P ++ A) ++ z1 :: None :: None :: R3) by (rewrite <- !app_assoc; reflexivity).
       apply aput_at. rewrite !app_length, LP, LA. cbn. lia. }
  eexists. split; [reflexivity|]. split.
  - exists R3. cbn [l_inputs]. f_equal.
    + subst P A. cbn [app]. rewrite map_app. reflexivity.
    + exact (eq_trans P2 (track_map snd sl 1 1 (l_input c))).
    + exact (eq_trans P1 (track_map snd sl 1 1 (l_act c))).
    + exact (eq_trans P3 (track_map snd sl 1 1 (l_lang c))).
  - cbn [l_inputs]. subst ins. destruct Hi as [Hi|Hi]; rewrite Hi in *.
    + exact Hi'.
    + destruct Hi' as (K & EK & LK & FK). exists K. rewrite KE in EK. rewrite <- line_squeeze. fold sl. fold q.
      split; [rewrite EK; cbn; rewrite app_nil_r; reflexivity|]. split; [exact FK|]. rewrite LK, LJ, Lx in *. lia.
Qed.

(** ** Runs *)
Definition plays {A} (good : A -> bool) (m : M A) (Q : list (ev * Z) -> A -> Prop) : Prop :=
  forall h, exists d, snd (m h) = d ++ h /\
    match fst (m h) with
    | Val a => if good a then Forall fine d /\ Q (rev d) a else ~ Forall fine d
    | Exit v => v <> 0 /\ ~ Forall fine d
    | Bad => False
    end.

Lemma plays_bind {A B} (ga : A -> bool) (gb : B -> bool) (m : M A) (f : A -> M B) Q1 Q2 (Q : list (ev * Z) -> B -> Prop) :
  plays ga m Q1 -> (forall l a, Q1 l a -> ga a = true -> plays gb (f a) (Q2 l a)) ->
  (forall a, ga a = false -> exists b, f a = ret b /\ gb b = false) ->
  (forall l1 a l2 b, Q1 l1 a -> Q2 l1 a l2 b -> Q (l1 ++ l2) b) -> plays gb (mbind m f) Q.
Proof.
  intros P1 P2 P3 PQ h. destruct (P1 h) as (d & E & H). unfold mbind.
  destruct (m h) as [[a|rc|] h'] eqn:Em; cbn [fst snd] in *; subst h'.
  - destruct (ga a) eqn:G.
    + destruct H as [F H]. destruct (P2 _ _ H G (d ++ h)) as (d2 & E2 & H2). exists (d2 ++ d). rewrite E2, app_assoc.
      split; [reflexivity|]. destruct (fst (f a (d ++ h))) as [b|rc|]; [destruct (gb b)| |].
      * destruct H2 as [F2 H2]. split; [apply Forall_app; auto|]. rewrite rev_app_distr. eapply PQ; eauto.
      * intros C. apply Forall_app in C. tauto.
      * destruct H2 as [H2 H3]. split; auto. intros C. apply Forall_app in C. tauto.
      * exact H2.
    + destruct (P3 a G) as (b & Ef & Gb). rewrite Ef. exists d. cbn. rewrite Gb. split; auto.
  - exists d. auto.
  - destruct H.
Qed.

Lemma plays_val {A B} (gb : B -> bool) (m : M A) (f : A -> M B) a (Q : list (ev * Z) -> B -> Prop) :
  (forall h, m h = (Val a, h)) -> plays gb (f a) Q -> plays gb (mbind m f) Q.
Proof. intros E P h. unfold mbind. rewrite E. apply P. Qed.
Lemma plays_ret {A} (good : A -> bool) a (Q : list (ev * Z) -> A -> Prop) : good a = true -> Q [] a -> plays good (ret a) Q.
Proof. intros G H h. exists []. cbn. rewrite G. auto. Qed.
Lemma plays_weaken {A} (good : A -> bool) m (Q Q' : list (ev * Z) -> A -> Prop) :
  plays good m Q -> (forall l a, Q l a -> Q' l a) -> plays good m Q'.
Proof.
  intros P H h. destruct (P h) as (d & E & R). exists d. split; auto. destruct (fst (m h)); auto. destruct (good a); auto.
  destruct R. auto.
Qed.

Definition did (evs : list ev) (l : list (ev * Z)) : Prop := map fst l = evs.
Lemma did_app e1 e2 l1 l2 : did e1 l1 -> did e2 l2 -> did (e1 ++ e2) (l1 ++ l2).
Proof. unfold did. intros <- <-. apply map_app. Qed.

Section World.
Variable w : world.
Variable rp : text -> option text.
Variable k : conf.

Lemma ask_bind {A} e (f : Z -> M A) h : mbind (ask w e) f h = f (w h e) ((e, w h e) :: h).
Proof. reflexivity. Qed.

Lemma run_cmd_plays args path : plays zero (run_cmd w args path)
  (fun l _ => did [Run (match path with Some p => p | None => hd [] args end) args] l).
Proof.
  intros h. unfold run_cmd, mbind, ask. cbv zeta beta.
  set (e := Run _ args). set (r := w h e). exists [(e, r)]. destruct (Z.ltb_spec r 0) as [L|L]; cbn.
  - split; auto. split; [discriminate|]. intros C. inversion C as [|? ? C1 _]; subst. cbn in C1. lia.
  - split; auto. unfold zero, wexit. destruct (Z.eqb_spec (Z.land (Z.shiftr r 8) 255) 0) as [Z|Z].
    + split; [|reflexivity]. constructor; auto. cbn. auto.
    + intros C. inversion C as [|? ? C1 _]; subst. cbn in C1. tauto.
Qed.
Lemma rename_plays a b : plays zero (rename w a b) (fun l _ => did [Rename a b] l).
Proof.
  intros h. unfold rename, mbind, ask, ret. exists [(Rename a b, w h (Rename a b))]. cbn. split; auto.
  destruct (Z.eqb_spec (w h (Rename a b)) 0) as [E|E]; cbn.
  - split; [constructor; auto|reflexivity].
  - intros C. inversion C. contradiction.
Qed.
Lemma copy_file_plays a b : plays zero (copy_file w a b) (fun l _ => did [Copy a b] l).
Proof.
  intros h. unfold copy_file, mbind, ask, ret. exists [(Copy a b, w h (Copy a b))].
  destruct (Z.eqb_spec (w h (Copy a b)) 0) as [E|E]; cbn; split; auto.
  - split; [constructor; auto|reflexivity].
  - split; [discriminate|]. intros C. inversion C. contradiction.
Qed.
Lemma do_dbgfilter_plays f : plays zero (do_dbgfilter w k f) (fun l _ => did (filter_steps k f) l).
Proof.
  unfold do_dbgfilter, filter_steps. destruct (k_dbg k) eqn:E; [apply plays_ret; reflexivity|]. rewrite <- E.
  eapply (plays_bind zero) with (Q2 := fun _ _ l _ => did [Rename (f ++ str ".tmp") f] l); [apply run_cmd_plays| | |].
  - intros l1 rv _ Z. unfold zero in Z. rewrite Z. apply rename_plays.
  - intros rv Z. exists rv. unfold zero in Z. rewrite Z. auto.
  - intros l1 a l2 b H1 H2. exact (did_app _ _ _ _ H1 H2).
Qed.

Lemma stem_ok base : stem (base ++ str ".patched.s") = base.
Proof.
  unfold stem. rewrite app_length. cbn [str]. change (length (str ".patched.s")) with 10%nat.
  replace (length base + 10 - 10)%nat with (length base) by lia. apply firstn_app_2 with (n := 0%nat) (l1 := base) (l2 := str ".patched.s") || idtac.
  rewrite firstn_app. rewrite firstn_all. replace (length base - length base)%nat with 0%nat by lia. cbn. apply app_nil_r.
Qed.

Definition found_ok (base : text) (found : bool) (l : list (ev * Z)) : Prop :=
  In (Access (base ++ str ".original.s"), if found then 0 else 2) l.

Lemma generate_plays base :
  plays zero1 (do_generate_kpatch w k (base ++ str ".patched.s"))
    (fun l r => snd r = base ++ str ".s" /\ exists found, did (patch_steps k base found) l /\ found_ok base found l).
Proof.
  unfold do_generate_kpatch. rewrite stem_ok.
  set (orig := base ++ str ".original.s"). set (new := base ++ str ".patched.s").
  set (rest := fun r1 : Z * list Z => if negb (fst r1 =? 0) then ret (fst r1, new) else generate_pair w k new (snd r1)).
  assert (R : forall (o : text) (found : bool), o = (if found then orig else str "/dev/null") ->
    plays zero1 (rest (0, o)) (fun l r => snd r = base ++ str ".s" /\
      did (filter_steps k new ++ [gensrc k (k_patch k ++ [str "-i"; o; str "-i"; new; str "-o"; base ++ str ".s.tmp"]);
        Rename (base ++ str ".s.tmp") (base ++ str ".s")]) l)).
  { intros o found Eo. subst rest. cbv beta. cbn [fst snd Z.eqb negb]. unfold generate_pair. rewrite (stem_ok base : stem new = base).
    eapply (plays_bind zero) with (Q2 := fun _ _ l r => snd r = base ++ str ".s" /\
      did [gensrc k (k_patch k ++ [str "-i"; o; str "-i"; new; str "-o"; base ++ str ".s.tmp"]);
        Rename (base ++ str ".s.tmp") (base ++ str ".s")] l); [apply do_dbgfilter_plays| | |].
    - intros l rv2 _ Z2. unfold zero in Z2. rewrite Z2. cbn [negb].
      eapply (plays_bind zero) with (Q2 := fun _ _ l r => snd r = base ++ str ".s" /\ did [Rename (base ++ str ".s.tmp") (base ++ str ".s")] l);
        [apply run_cmd_plays| | |].
      + intros l0 rv3 _ Z3. unfold zero in Z3. rewrite Z3. cbn [negb].
        eapply (plays_bind zero) with (Q2 := fun _ _ l r => snd r = base ++ str ".s" /\ did [] l); [apply rename_plays| | |].
        * intros l1 rv4 _ Z4. apply plays_ret; [exact Z4|split; reflexivity].
        * intros rv4 Z4. eexists. split; [reflexivity|exact Z4].
        * intros l1 a l2 b H1 [H2 H3]. split; auto. exact (did_app _ _ _ _ H1 H3).
      + intros rv3 Z3. eexists. split; [unfold zero in Z3; rewrite Z3; reflexivity|exact Z3].
      + intros l1 a l2 b H1 [H2 H3]. split; auto. exact (did_app _ _ _ _ H1 H3).
    - intros rv2 Z2. eexists. split; [unfold zero in Z2; rewrite Z2; reflexivity|exact Z2].
    - intros l1 a l2 b H1 [H2 H3]. split; auto. exact (did_app _ _ _ _ H1 H3). }
  assert (RF : forall r1 : Z * list Z, zero1 r1 = false -> exists b, rest r1 = ret b /\ zero1 b = false).
  { intros [rv o] Z. subst rest. cbv beta. unfold zero1 in Z. cbn [fst] in *. rewrite Z. cbn [negb].
    eexists. split; [reflexivity|exact Z]. }
  assert (P : forall r, r = 0 \/ r = 2 ->
    plays zero1 (mbind (if r =? 0 then get rv <- do_dbgfilter w k orig; ret (rv, orig)
                        else if r =? 2 then ret (0, str "/dev/null") else exit 129) rest)
      (fun l x => snd x = base ++ str ".s" /\ did (tl (patch_steps k base (r =? 0))) l)).
  { intros r [->| ->]; cbn [Z.eqb].
    - change (0 =? 0) with true. cbv iota.
      eapply (plays_bind zero1) with
        (Q1 := fun l x => x = (0, orig) /\ did (filter_steps k orig) l)
        (Q2 := fun _ _ l r => snd r = base ++ str ".s" /\
          did (filter_steps k new ++ [gensrc k (k_patch k ++ [str "-i"; orig; str "-i"; new; str "-o"; base ++ str ".s.tmp"]);
            Rename (base ++ str ".s.tmp") (base ++ str ".s")]) l).
      + eapply (plays_bind zero) with (Q2 := fun _ rv l x => rv = 0 /\ x = (0, orig) /\ did [] l); [apply do_dbgfilter_plays| | |].
        * intros l rv _ Z. apply plays_ret; [exact Z|]. unfold zero in Z. apply Z.eqb_eq in Z. subst. repeat split.
        * intros rv Z. eexists. split; [reflexivity|exact Z].
        * intros l1 a l2 b H1 (H2 & H3 & H4). split; auto. pose proof (did_app _ _ _ _ H1 H4) as H. rewrite app_nil_r in H. exact H.
      + intros l a [-> _] _. exact (R orig true eq_refl).
      + exact RF.
      + intros l1 a l2 b [_ H1] [H2 H3]. split; auto. exact (did_app _ _ _ _ H1 H3).
    - change (2 =? 0) with false. change (2 =? 2) with true. cbv iota.
      apply plays_val with (a := (0, str "/dev/null")); [reflexivity|]. exact (R (str "/dev/null") false eq_refl). }
  intros h. rewrite ask_bind. generalize (w h (Access orig)). intros r.
  destruct (Z.eq_dec r 0) as [E0|N0]; [|destruct (Z.eq_dec r 2) as [E2|N2]].
  3: { exists [(Access orig, r)]. rewrite (proj2 (Z.eqb_neq r 0) N0), (proj2 (Z.eqb_neq r 2) N2).
       split; [reflexivity|]. split; [discriminate|]. intros C. inversion C as [|? ? C1 _]; subst. cbn in C1. tauto. }
  all: destruct (P r ltac:(auto) ((Access orig, r) :: h)) as (d & E & H); exists (d ++ [(Access orig, r)]);
    split; [rewrite <- app_assoc; exact E|].
  all: match type of H with match fst ?x with _ => _ end => change (match fst x with
      | Val a => if zero1 a then Forall fine (d ++ [(Access orig, r)]) /\ (snd a = base ++ str ".s" /\ exists found : bool,
          did (patch_steps k base found) (rev (d ++ [(Access orig, r)])) /\ found_ok base found (rev (d ++ [(Access orig, r)])))
        else ~ Forall fine (d ++ [(Access orig, r)])
      | Exit v => v <> 0 /\ ~ Forall fine (d ++ [(Access orig, r)])
      | Bad => False
      end); destruct (fst x) as [y|rc|]; [destruct (zero1 y)| |exact H] end.
  all: try (intros C; apply Forall_app in C; tauto).
  all: try (destruct H as [H1 H2]; split; auto; intros C; apply Forall_app in C; tauto).
  all: destruct H as (F & H1 & H2); split; [apply Forall_app; split; auto; constructor; [cbn; auto|constructor]|].
  all: split; auto; exists (r =? 0); rewrite rev_app_distr; split; [unfold did in *; cbn; rewrite H2; reflexivity|].
  all: left; cbn; rewrite ?E0, ?E2; reflexivity.
Qed.
End World.
