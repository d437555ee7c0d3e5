(* Proofs about the compiler wrapper: builds from several files. *)
From Coq Require Import ZArith List Bool String Sorted Lia.
From Verif Require Import Base BaseProofs StorageModel TextModel CcModel CcSpec CcProofs CcRun CcMain CcWhole.
Import ListNotations.
Open Scope Z_scope.
Open Scope list_scope.

Lemma aget_app (a : list (option text)) x b n h : length a = n -> aget (a ++ x :: b) n h = (Val x, h).
Proof. intros <-. apply aget_nth. rewrite nth_error_app2 by lia. rewrite Nat.sub_diag. reflexivity. Qed.

Fixpoint unmarked (xs is : list (option text)) : list (option text) :=
  match xs, is with x :: r, i :: s => (match i with Some _ => [] | None => [x] end) ++ unmarked r s | _, _ => [] end.
Lemma plain_args_run n : forall pa xs ra pi is ri h, length xs = n -> length is = n -> length pa = length pi ->
  plain_args n (length pa) (pa ++ xs ++ ra) (pi ++ is ++ ri) h = (Val (unmarked xs is), h).
Proof.
  induction n as [|n IH]; intros pa xs ra pi is ri h L1 L2 L3; destruct xs as [|x xs], is as [|i is]; try discriminate; [reflexivity|].
  cbn [plain_args app]. erewrite bind_val by (apply aget_app; auto).
  assert (E1 : pa ++ x :: xs ++ ra = (pa ++ [x]) ++ xs ++ ra) by (rewrite <- app_assoc; reflexivity).
  assert (E2 : pi ++ i :: is ++ ri = (pi ++ [i]) ++ is ++ ri) by (rewrite <- app_assoc; reflexivity).
  specialize (IH (pa ++ [x]) xs ra (pi ++ [i]) is ri h ltac:(cbn in L1; lia) ltac:(cbn in L2; lia) ltac:(rewrite !app_length; cbn; lia)).
  rewrite app_length, Nat.add_comm in IH. cbn [length Nat.add] in IH.
  destruct i as [f|].
  - erewrite bind_val by reflexivity. rewrite E1, E2. erewrite bind_val by exact IH. reflexivity.
  - erewrite bind_val. 2: { erewrite bind_val by (apply aget_app; reflexivity). reflexivity. }
    rewrite E1, E2. erewrite bind_val by exact IH. reflexivity.
Qed.
Lemma unmarked_line L A : unmarked (map Some (map snd L ++ A)) (map in_tag L ++ repeat None (length A)) =
  map Some (map snd (filter (fun x => negb (is_input x)) L) ++ A).
Proof.
  induction L as [|[t x] L IH]; cbn [map app filter].
  - induction A as [|a A IH]; [reflexivity|]. cbn in *. rewrite IH. reflexivity.
  - cbn [unmarked]. rewrite IH. destruct t; reflexivity.
Qed.

Section World.
Variable w : world.
Variable rp : text -> option text.
Variable k : conf.
Variable ws : list wd.
Hypothesis NC : k_stage k = Patched -> k_stagename k = str "patched".

Definition P : list text := k_real k :: map snd (filter (fun x => negb (is_input x)) (line k ws)) ++ k_append k.

Lemma cargs_some (l : list text) r : cargs (map Some l ++ None :: r) = l.
Proof. induction l as [|x l IH]; cbn; [reflexivity|]. rewrite IH. reflexivity. Qed.

Lemma not_dash f : is_source f \/ is_asm f \/ is_asm_cpp f \/ is_object f -> teq f dash = false.
Proof.
  intros H. apply teq_neq. intros E.
  assert (exists n x, f = n ++ str "." ++ x) as (n & x & E1).
  { destruct H as [(n & x & E1 & _)|[(n & E1)|[(n & E1)|(n & x & E1 & _)]]]; eauto; exists n; eexists; exact E1. }
  rewrite E1 in E. destruct n as [|c [|c' n]]; discriminate E.
Qed.

Lemma one_plays c p : part_ok k rp p ->
  plays zero1 (one_input w rp k c (map Some P) (p_file p)) (fun l r => snd r = part_result k p /\
    exists found, did (part_steps k ws p found) l /\ (k_stage k = Patched -> p_kind p <> PKeep -> found_said (p_base p) found l)).
Proof.
  intros ((d & b & ID & AB) & L1 & L2 & PK). unfold one_input.
  assert (ND : teq (p_file p) dash = false) by (apply not_dash; destruct (p_kind p); tauto).
  refine (plays_bind any zero1 _ _ _ (fun _ _ l r => snd r = part_result k p /\ exists found, did
    (match p_kind p with
     | PKeep => []
     | PAsm => [Copy (p_file p) (asm_file k (p_base p))] ++ stage_steps k (p_base p) found
     | PAsmCpp => [Run (k_real k) (part_command k ws (str "-E") p)] ++ stage_steps k (p_base p) found
     | PSource => [Run (k_real k) (part_command k ws (str "-S") p)] ++ stage_steps k (p_base p) found
     end) l /\ (k_stage k = Patched -> p_kind p <> PKeep -> found_said (p_base p) found l)) _
    (gaf_plays w rp k (l_out c) (p_file p) (Some (p_file p)) d b (p_base p) _ (conj ID L1) AB L2) _ _ _).
  - rewrite ND. reflexivity.
  - intros l a [-> _] _. cbv zeta. rewrite ND. apply plays_val with (a := @None text); [reflexivity|].
    assert (CM : forall x, cargs (map Some P ++ [Some x; Some (p_file p); Some (str "-o"); Some (asm_file k (p_base p)); None]) = part_command k ws x p).
    { intros x. replace (map Some P ++ [Some x; Some (p_file p); Some (str "-o"); Some (asm_file k (p_base p)); None])
        with (map Some (P ++ [x; p_file p; str "-o"; asm_file k (p_base p)]) ++ [None]).
      - rewrite cargs_some. unfold P, part_command. cbn [app]. rewrite <- app_assoc. reflexivity.
      - rewrite map_app, <- app_assoc. reflexivity. }
    rewrite !CM.
    assert (GEN : forall (m : M Z) e, plays zero m (fun l _ => did [e] l) -> part_result k p = ready k (p_base p) ->
      plays zero1 (get rv <- m; if negb (rv =? 0) then ret (rv, p_file p)
         else match k_stage k with Patched => do_generate_kpatch w k (asm_file k (p_base p)) | _ => ret (0, asm_file k (p_base p)) end)
        (fun l r => snd r = part_result k p /\ exists found, did ([e] ++ stage_steps k (p_base p) found) l /\
           (k_stage k = Patched -> p_kind p <> PKeep -> found_said (p_base p) found l))).
    { intros m e PM PR. refine (plays_bind zero zero1 _ _ _ (fun _ _ l r => snd r = ready k (p_base p) /\ exists found,
        did (stage_steps k (p_base p) found) l /\ (k_stage k = Patched -> found_ok (p_base p) found l)) _ PM _ _ _).
      - intros l1 rv _ Z. unfold zero in Z. rewrite Z. cbn [negb]. apply (stage_plays w rp k (p_base p) NC).
      - intros rv Z. unfold zero in Z. rewrite Z. eexists. split; [reflexivity|exact Z].
      - intros l1 rv l2 r D1 [E (found & D2 & F)]. split; [congruence|]. exists found. split; [apply did_app; auto|].
        intros S _. specialize (F S). unfold found_ok, found_said in *. apply in_or_app. auto. }
    assert (PR : p_kind p <> PKeep -> part_result k p = ready k (p_base p)).
    { unfold part_result. destruct (p_kind p); intros H; try reflexivity. contradiction. }
    destruct (p_kind p) eqn:EK.
    + rewrite (source_type _ _ PK). apply GEN; [|apply PR; discriminate]. apply run_cmd_plays.
    + destruct PK as [KA PK]. rewrite (asm_type _ _ PK), KA. apply GEN; [|apply PR; discriminate]. apply copy_file_plays.
    + destruct PK as [KA PK]. rewrite (asmcpp_type _ _ PK), KA. apply GEN; [|apply PR; discriminate]. apply run_cmd_plays.
    + assert (E : part_result k p = p_file p) by (unfold part_result; rewrite EK; reflexivity).
      assert (R : plays zero1 (ret (0, p_file p)) (fun l r => snd r = part_result k p /\ exists found : bool, did [] l /\
         (k_stage k = Patched -> PKeep <> PKeep -> found_said (p_base p) found l))).
      { apply plays_ret; [reflexivity|]. split; [symmetry; exact E|]. exists true. split; [reflexivity|]. intros _ H. contradiction. }
      destruct PK as [PK|[KA [PK|PK]]].
      * rewrite (object_type _ _ PK). exact R.
      * rewrite (asm_type _ _ PK), KA. exact R.
      * rewrite (asmcpp_type _ _ PK), KA. exact R.
  - discriminate.
  - intros l1 a l2 r [_ D] [E (found & D2 & F)]. split; [exact E|]. exists found. split; [apply did_app; auto|].
    intros S N. specialize (F S N). unfold found_said in *. apply in_or_app. auto.
Qed.

Lemma nones_run n : forall i c plain ins argv, (forall j, (i <= j < i + n)%nat -> nth_error ins j = Some None) ->
  forall h, each_input w rp k n i c plain ins argv h = (Val (0, argv), h).
Proof.
  induction n as [|n IH]; intros i c plain ins argv H h; [reflexivity|]. cbn [each_input].
  erewrite bind_val by (apply aget_nth; apply H; lia). apply IH. intros j Hj. apply H. lia.
Qed.

Definition saids (ps : list part) (founds : list bool) (l : list (ev * Z)) : Prop :=
  length founds = length ps /\ (k_stage k = Patched -> forall p found, In (p, found) (combine ps founds) -> p_kind p <> PKeep -> found_said (p_base p) found l).

Lemma each_plays c R ins n : forall L done pre ps, ins = pre ++ map in_tag L ++ repeat None n -> n = length (k_append k) -> length pre = S (length done) ->
  map p_file ps = map snd (filter is_input L) -> Forall (part_ok k rp) ps ->
  plays zero1 (each_input w rp k (length L + n) (S (length done)) c (map Some P) ins (V k (done ++ map snd L) None None R))
    (fun l r => snd r = V k (done ++ place k L ps) None None R /\ exists founds, did (build_steps k ws ps founds) l /\ saids ps founds l).
Proof.
  induction L as [|[t x] L IH]; intros done pre ps EI En LP EP PO.
  - destruct ps; [|discriminate]. intros h. cbn [map length Nat.add]. rewrite nones_run.
    + exists []. split; [reflexivity|]. cbn. split; [constructor|]. split; [reflexivity|]. exists []. split; [reflexivity|]. split; [reflexivity|]. cbn. tauto.
    + intros j Hj. rewrite EI. cbn [map app]. rewrite nth_error_app2 by lia.
      assert (L0 : (j - length pre < length (repeat (@None text) n))%nat) by (rewrite repeat_length; lia).
      apply nth_error_Some in L0. destruct (nth_error (repeat None n) (j - length pre)) as [y|] eqn:E; [|contradiction].
      apply nth_error_In, repeat_spec in E. subst. reflexivity.
  - assert (EI' : ins = (pre ++ [in_tag (t, x)]) ++ map in_tag L ++ repeat None n) by (rewrite EI, <- app_assoc; reflexivity).
    assert (LP' : length (pre ++ [in_tag (t, x)]) = S (length (done ++ [x]))) by (rewrite !app_length; cbn; lia).
    assert (GET : forall h, aget ins (S (length done)) h = (Val (in_tag (t, x)), h)).
    { intros h. rewrite EI. cbn [map app]. apply aget_app. exact LP. }
    cbn [length Nat.add each_input]. apply plays_val with (a := in_tag (t, x)); [exact GET|].
    assert (ED : forall y, S (length done) = length (done ++ [y : text])) by (intros; rewrite app_length; cbn; lia).
    assert (KEEP : in_tag (t, x) = None -> is_input (t, x) = false -> map p_file ps = map snd (filter is_input L) ->
      plays zero1 (each_input w rp k (length L + n) (S (S (length done))) c (map Some P) ins (V k (done ++ map snd ((t, x) :: L)) None None R))
       (fun l r => snd r = V k (done ++ x :: place k L ps) None None R /\ exists founds, did (build_steps k ws ps founds) l /\ saids ps founds l)).
    { intros _ _ EP'. pose proof (IH (done ++ [x]) _ ps EI' En LP' EP' PO) as Q. rewrite <- (ED x) in Q. rewrite <- !app_assoc in Q. exact Q. }
    destruct t; try (cbn [in_tag fst snd place is_input]; apply KEEP; [reflexivity|reflexivity|exact EP]).
    cbn [in_tag fst snd]. cbn [filter is_input fst map snd] in EP. destruct ps as [|p ps]; [discriminate|]. cbn [map] in EP.
    assert (EF : p_file p = x) by congruence. assert (EP' : map p_file ps = map snd (filter is_input L)) by congruence. clear EP.
    inversion PO as [|? ? PO1 PO2]; subst x0 l. rewrite <- EF.
    refine (plays_bind zero1 zero1 _ _ _ (fun _ _ l r => snd r = V k (done ++ place k ((TIn, x) :: L) (p :: ps)) None None R /\
      exists founds, did (build_steps k ws ps founds) l /\ saids ps founds l) _ (one_plays c p PO1) _ _ _).
    + intros l [rv f'] [E _] Z. cbn [snd] in E. subst f'. unfold zero1 in Z. cbn [fst] in Z. rewrite Z. cbn [negb].
      apply plays_val with (a := V k (upd (done ++ map snd ((TIn, p_file p) :: L)) (length done) (part_result k p)) None None R).
      { intros h. apply (aput_mid rp). rewrite app_length. cbn. lia. }
      assert (EU : upd (done ++ map snd ((TIn, p_file p) :: L)) (length done) (part_result k p) = (done ++ [part_result k p]) ++ map snd L).
      { rewrite <- app_assoc. clear. induction done as [|y done IH]; cbn; [reflexivity|]. f_equal. exact IH. }
      rewrite EU. pose proof (IH (done ++ [part_result k p]) (pre ++ [in_tag (TIn, x)]) ps EI' En) as Q.
      rewrite <- (ED (part_result k p)) in Q. rewrite <- !app_assoc in *. apply Q; auto. rewrite app_length. cbn. lia.
    + intros [rv f'] Z. unfold zero1 in Z. cbn [fst] in Z. rewrite Z. eexists. split; [reflexivity|exact Z].
    + intros l1 a l2 r [_ (found & D & F)] [E (founds & D2 & LF & F2)]. split; [exact E|]. exists (found :: founds). split.
      * unfold build_steps. cbn [combine flat_map fst snd]. apply did_app; auto.
      * split; [cbn; lia|]. intros S q fd I NK. cbn [combine] in I. unfold found_said in *. apply in_or_app. destruct I as [I|I].
        -- left. inversion I; subst. apply F; auto.
        -- right. apply (F2 S q fd I NK).
Qed.

Lemma build_plays c L K R ps o : L = line k ws -> l_argv c = V k (map snd L) None None R -> l_argc c = (1 + length L + length (k_append k))%nat ->
  l_inputs c = Some (None :: map in_tag L ++ K) -> Forall (fun x => x = None) K -> (length (k_append k) <= length K)%nat -> l_ninputs c = length ps ->
  l_out c = Some o -> map p_file ps = map snd (filter is_input L) -> Forall (part_ok k rp) ps ->
  plays zero (build_multiple w rp k c) (fun l _ => exists founds,
    did (build_steps k ws ps founds ++ [Run (k_real k) (build_command k ws ps o)]) l /\ saids ps founds l).
Proof.
  intros EL EV EC EI KN LK EN EO EP PO. unfold build_multiple. rewrite EI, EV, EC, EN, EO.
  assert (EK : K = repeat None (length (k_append k)) ++ repeat None (length K - length (k_append k))).
  { rewrite <- repeat_app. replace (length (k_append k) + (length K - length (k_append k)))%nat with (length K) by lia.
    clear - KN. induction KN as [|x K -> _ IH]; cbn; congruence. }
  set (A := length (k_append k)) in *. set (K2 := repeat None (length K - A)) in *.
  apply plays_val with (a := map Some P).
  { intros h. pose proof (plain_args_run (1 + length L + A) [] (Some (k_real k) :: map Some (map snd L ++ k_append k)) (None :: None :: None :: R)
      [] (None :: map in_tag L ++ repeat None A) K2 h) as Q. cbn [length app] in Q.
    rewrite EK, (app_assoc (map in_tag L)). unfold V. cbn [app]. rewrite Q; clear Q.
    - cbn [unmarked]. f_equal. f_equal. unfold P. cbn [map app]. f_equal. subst A. rewrite unmarked_line. rewrite EL. reflexivity.
    - cbn. rewrite map_length, app_length, map_length. reflexivity.
    - cbn. rewrite app_length, map_length, repeat_length. reflexivity.
    - reflexivity. }
  assert (LF : forall l : list (tag * text), length (filter (fun x => negb (is_input x)) l) = (length l - length (filter is_input l))%nat /\
    (length (filter is_input l) <= length l)%nat).
  { induction l as [|y l [I1 I2]]; [auto|]. cbn [filter]. destruct (is_input y); cbn [negb length]; rewrite I1; split; lia. }
  assert (LPS : length ps = length (filter is_input L)) by (rewrite <- (map_length p_file), EP, map_length; reflexivity).
  assert (LPL : length (map Some P) = (1 + (length L - length ps) + A)%nat).
  { unfold P. rewrite map_length. cbn [length]. rewrite app_length, map_length, <- EL. destruct (LF L) as [-> _]. rewrite LPS. reflexivity. }
  rewrite LPL. destruct (LF L) as [_ LF2]. rewrite <- LPS in LF2.
  replace (Nat.leb (1 + length L + A - length ps + 5) (1 + (length L - length ps) + A + 4)) with false by (symmetry; apply Nat.leb_gt; lia).
  replace (1 + length L + A - 1)%nat with (length L + A)%nat by lia.
  assert (IE : None :: map in_tag L ++ K = [None] ++ map in_tag L ++ repeat None A ++ K2) by (rewrite EK at 1; reflexivity).
  (* the array is longer than what is looked at *)
  assert (EX : forall n i argv, (i + n <= 1 + length L + A)%nat -> forall h,
    each_input w rp k n i c (map Some P) (None :: map in_tag L ++ K) argv h =
    each_input w rp k n i c (map Some P) ([None] ++ map in_tag L ++ repeat None A) argv h).
  { assert (NE : forall j, (j < 1 + length L + A)%nat -> nth_error (None :: map in_tag L ++ K) j = nth_error ([None] ++ map in_tag L ++ repeat None A) j).
    { intros j Hj. rewrite IE. rewrite !app_assoc. rewrite nth_error_app1; [rewrite <- !app_assoc; reflexivity|].
      rewrite !app_length, map_length, repeat_length. cbn. lia. }
    induction n as [|n IH]; intros i argv Hn h; [reflexivity|]. cbn [each_input]. unfold mbind at 1 4. unfold aget. rewrite NE by lia.
    destruct (nth_error ([None] ++ map in_tag L ++ repeat None A) i) as [[f|]|]; cbn [ret bad]; [|apply IH; lia|reflexivity].
    unfold ret. unfold mbind. destruct (one_input w rp k c (map Some P) f h) as [[[rv f']|rc|] h']; try reflexivity.
    destruct (negb (rv =? 0)); [reflexivity|]. destruct (aput argv i (Some f') h') as [[argv'|rc|] h'']; try reflexivity. apply IH. lia. }
  pose proof (each_plays c R ([None] ++ map in_tag L ++ repeat None A) A L [] [None] ps eq_refl eq_refl eq_refl EP PO) as Q.
  cbn [length app] in Q.
  refine (plays_bind zero1 zero _ _ _ (fun _ _ l _ => did [Run (k_real k) (build_command k ws ps o)] l) _ (_ : plays zero1 _ _) _ _ _).
  - intros h. rewrite EX by lia. exact (Q h).
  - intros l [rv argv] [E _] Z. cbn [snd] in E. subst argv. unfold zero1 in Z. cbn [fst] in Z. rewrite Z. cbn [negb].
    assert (LPC : length (place k L ps) = length L).
    { clear. revert ps. induction L as [|x L IH]; intros ps; [reflexivity|]. cbn. destruct (is_input x); [destruct ps|]; cbn; rewrite IH; reflexivity. }
    apply plays_val with (a := V k (place k L ps) (Some (str "-o")) (Some o) R).
    { intros h. erewrite bind_val by (apply aput_o1; rewrite LPC; reflexivity). apply aput_o2. rewrite LPC. reflexivity. }
    rewrite cargs_V. rewrite EL. apply run_cmd_plays.
  - intros [rv argv] Z. unfold zero1 in Z. cbn [fst] in Z. rewrite Z. exists rv. split; [reflexivity|exact Z].
  - intros l1 a l2 b [_ (founds & D & LFo & F)] D2. exists founds. split; [apply did_app; auto|]. split; [exact LFo|].
    intros S p fd I NK. specialize (F S p fd I NK). unfold found_said in *. apply in_or_app. auto.
Qed.
End World.

Lemma init_multi k ws o l : k_stage k <> Configure -> Forall wd_ok ws -> ins ws <> [] -> acts ws = [] -> outs ws = l ++ [o] -> o <> str "/dev/null" ->
  exists pi pl, init_args k (spell_all ws) = Val {| l_action := AMulti;
      l_argv := Some (k_real k) :: map (option_map snd) (all_slots ws) ++ [None] ++ repeat None (length (k_append k) + 2);
      l_argc := S (length (spell_all ws)); l_inputs := Some (None :: map in_slot (all_slots ws)); l_ninputs := length (ins ws);
      l_input := pi; l_act := 0; l_lang := pl; l_out := Some o |}.
Proof.
  intros NC K NI EA EO ND. unfold init_args. set (a0 := match spell_all ws with [a] => _ | _ => APass end).
  assert (A0 : a0 = APass).
  { assert (2 <= length (spell_all ws))%nat as LS.
    { assert (forall l : list wd, (length (ins l) + length (outs l) <= length (spell_all l))%nat) as H.
      { induction l0 as [|x l0 IH]; [auto|]. unfold ins, outs, spell_all in *. cbn [flat_map]. rewrite !app_length. destruct x; cbn [length spell]; lia. }
      specialize (H ws). rewrite EO, app_length in H. cbn in H. destruct (ins ws); [contradiction|]. cbn in H. lia. }
    subst a0. destruct (spell_all ws) as [|a [|b r]]; [reflexivity|cbn in LS; lia|reflexivity]. }
  rewrite scan_all by exact K. cbn [fst snd]. rewrite zip_argv, zip_ins.
  destruct (effs_action0 ws EA 1 (scan0 a0)) as [E1 E2]. cbn [scan0 sc_action sc_act] in E1, E2.
  pose proof (effs_out ws 1 (scan0 a0)) as EO'. cbn [sc_out scan0] in EO'. rewrite (last_outs ws l o EO) in EO'.
  pose proof (effs_n ws 1 (scan0 a0)) as EN. cbn [scan0 sc_ninput Nat.add] in EN.
  cbv zeta. rewrite E1, E2, EN, EO'. rewrite A0. cbn [decide].
  assert (Nat.ltb 0 (length (ins ws)) = true) as -> by (destruct (ins ws); [contradiction|reflexivity]).
  cbn [out_file]. assert (PN : pass_null (Some o) AMulti = AMulti).
  { unfold pass_null. rewrite teq_neq by exact ND. reflexivity. }
  cbv zeta. rewrite PN. cbn [typed obind]. eexists _, _. destruct (k_stage k); try contradiction; reflexivity.
Qed.

Lemma line_ins k ws : Forall wd_ok ws -> map snd (filter is_input (line k ws)) = ins ws.
Proof.
  intros K. unfold line. induction K as [|x ws Kx K IH]; [reflexivity|]. cbn [flat_map]. rewrite filter_app, filter_app, map_app.
  unfold ins. cbn [flat_map]. fold (ins ws). f_equal; [|exact IH].
  assert (N : forall l, (forall y, In y l -> is_input y = false) -> map snd (filter is_input (filter (fun z => negb (dropped k (snd z))) l)) = []).
  { induction l as [|y l IHl]; intros H; [reflexivity|]. cbn. destruct (negb (dropped k (snd y))); cbn; [|apply IHl; intros; apply H; right; auto].
    rewrite (H y (or_introl eq_refl)). apply IHl. intros; apply H; right; auto. }
  destruct x; try (apply N; cbn [tagged In]; intros y I; intuition (subst; reflexivity)).
  cbn [tagged filter snd]. assert (D : dropped k f = false).
  { eapply (in_not_dropped k [WIn f]); [constructor; [exact Kx|constructor]|]. left. reflexivity. }
  rewrite D. reflexivity.
Qed.

Lemma build_runs w rp k ws ps o l c0 : k_stage k <> Configure -> (k_stage k = Patched -> k_stagename k = str "patched") ->
  Forall wd_ok ws -> words_ok k ws -> map p_file ps = ins ws -> ps <> [] -> acts ws = [] -> outs ws = l ++ [o] -> o <> str "/dev/null" ->
  (length (line k ws) + length (k_append k) <= length (spell_all ws))%nat -> Forall (part_ok k rp) ps ->
  init_args k (spell_all ws) = Val c0 ->
  plays zero (emulate_cc w rp k c0) (fun l _ => exists founds,
    did (build_steps k ws ps founds ++ [Run (k_real k) (build_command k ws ps o)]) l /\ saids k ps founds l).
Proof.
  intros NC SN K W EP NP EA EO ND LL PO E0.
  assert (NI : ins ws <> []) by (rewrite <- EP; destruct ps; [contradiction|discriminate]).
  destruct (init_multi k ws o l NC K NI EA EO ND) as (pi & pl & E). rewrite E in E0.
  assert (c0 = _) by (symmetry; apply (f_equal (fun z => match z with Val c => c | _ => c0 end) E0)). clear E0. subst c0.
  set (c0 := {| l_action := AMulti |}). intros h.
  destruct (modify_run k c0 ws h W K) as (c' & E1 & (R & E2) & KK & E3 & E4 & E5); [reflexivity|reflexivity|right; reflexivity|].
  assert (EM : emulate_cc w rp k c0 h = build_multiple w rp k c' h).
  { unfold emulate_cc. subst c0. cbn [l_action]. erewrite bind_val by exact E1. rewrite E2. reflexivity. }
  rewrite EM. pose proof (line_squeeze k ws) as SQ.
  refine (build_plays w rp k ws SN c' (line k ws) KK R ps o eq_refl _ _ E3 E4 _ _ _ _ PO h).
  - rewrite E2. cbn [l_argv]. rewrite SQ. reflexivity.
  - rewrite E2. cbn [l_argc]. rewrite SQ. reflexivity.
  - lia.
  - rewrite E2. subst c0. cbn [l_ninputs]. rewrite <- EP, map_length. reflexivity.
  - rewrite E2. reflexivity.
  - rewrite line_ins by exact K. exact EP.
Qed.
