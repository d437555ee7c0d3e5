(* Proofs about the compiler wrapper: file names, the steps of a compilation and of a build from several files. *)
From Coq Require Import ZArith List Bool String Sorted Lia.
From Verif Require Import Base BaseProofs StorageModel TextModel CcModel CcSpec CcProofs CcRun CcMain.
Import ListNotations.
Open Scope Z_scope.
Open Scope list_scope.

(** ** Names of files *)
Lemma split_last_none c s : ~ In c s -> split_last c s = None.
Proof.
  induction s as [|x s IH]; cbn; intros N; auto. rewrite IH by tauto. destruct (Z.eqb_spec x c); [tauto|reflexivity].
Qed.
Lemma split_last_app c a b : ~ In c b -> split_last c (a ++ c :: b) = Some (a, b).
Proof.
  intros N. induction a as [|x a IH]; cbn.
  - rewrite split_last_none by auto. rewrite Z.eqb_refl. reflexivity.
  - rewrite IH. reflexivity.
Qed.
Lemma after_last_none c s : ~ In c s -> after_last c s = None.
Proof.
  induction s as [|x s IH]; cbn; intros N; auto. rewrite IH by tauto. destruct (Z.eqb_spec x c); [tauto|reflexivity].
Qed.
Lemma after_last_app c a b : ~ In c b -> after_last c (a ++ c :: b) = Some b.
Proof.
  intros N. induction a as [|x a IH]; cbn.
  - rewrite after_last_none by auto. rewrite Z.eqb_refl. reflexivity.
  - rewrite IH. reflexivity.
Qed.
Lemma strip_front_not s : hd 0 s <> 47 -> strip_front s = s.
Proof.
  destruct s as [|c s]; cbn; auto. intros N. destruct c as [|p|p]; auto. repeat (destruct p as [p|p|]; auto).
  contradiction.
Qed.
Lemma hd_rev (l : text) : hd 0 (rev l) = last l 0.
Proof.
  induction l as [|x l IH] using rev_ind; auto. rewrite rev_app_distr. cbn. rewrite last_last. reflexivity.
Qed.
Lemma strip_slashes_not d : last d 0 <> 47 -> strip_slashes d = d.
Proof. intros N. unfold strip_slashes. rewrite strip_front_not; [apply rev_involutive|]. rewrite hd_rev. exact N. Qed.

Lemma names_ok p d b : in_dir p d b -> names p = (d, b).
Proof.
  intros (Nb & Ns & [[-> ->]|(-> & Nd & Nl)]); unfold names.
  - rewrite split_last_none by auto. reflexivity.
  - change (str "/") with [47]. cbn [app]. rewrite split_last_app by auto. rewrite strip_slashes_not by auto.
    destruct d; [contradiction|reflexivity].
Qed.

Lemma dirs_from_ok rest : forall done,
  dirs_from done rest = map (fun n => firstn n (done ++ rest))
    (filter (fun n => nth n (done ++ rest) 0 =? 47) (seq (length done) (length rest))).
Proof.
  induction rest as [|c r IH]; intros done; [reflexivity|]. cbn [dirs_from length seq filter].
  rewrite app_nth2 by lia. rewrite Nat.sub_diag. cbn [nth].
  specialize (IH (done ++ [c])). rewrite app_length in IH. cbn [length] in IH. rewrite Nat.add_1_r in IH.
  rewrite <- app_assoc in IH. cbn [app] in IH. rewrite IH. destruct (c =? 47); [|reflexivity].
  cbn [map]. f_equal. rewrite firstn_app, Nat.sub_diag, firstn_all. cbn. rewrite app_nil_r. reflexivity.
Qed.
Lemma dirs_of_ok p : dirs_of p = parents p.
Proof.
  unfold parents. destruct p as [|c r]; [reflexivity|]. cbn [dirs_of]. rewrite dirs_from_ok. cbn [length app].
  rewrite Nat.sub_succ, Nat.sub_0_r. reflexivity.
Qed.

Section World.
Variable w : world.
Variable rp : text -> option text.
Variable k : conf.

Lemma make_dirs_plays l : plays any (make_dirs w l) (fun t _ => did (map Mkdir l) t).
Proof.
  induction l as [|d l IH]; cbn [make_dirs map]; [apply plays_ret; reflexivity|].
  intros h. rewrite ask_bind. generalize (w h (Mkdir d)). intros r.
  destruct ((r =? 0) || (r =? 17)) eqn:E.
  - destruct (IH ((Mkdir d, r) :: h)) as (d' & E' & H). exists (d' ++ [(Mkdir d, r)]).
    rewrite E', <- app_assoc. split; [reflexivity|].
    assert (F : Forall fine [(Mkdir d, r)]) by (constructor; [cbn; lia|constructor]).
    destruct (fst (make_dirs w l ((Mkdir d, r) :: h))); cbn [any] in *.
    + destruct H as [H1 H2]. split; [apply Forall_app; auto|]. rewrite rev_app_distr. unfold did in *. cbn. rewrite H2. reflexivity.
    + destruct H as [H1 H2]. split; auto. intros C. apply Forall_app in C. tauto.
    + exact H.
  - exists [(Mkdir d, r)]. split; [reflexivity|]. split; [discriminate|]. intros C. inversion C as [|? ? C1 _]; subst. cbn in C1. lia.
Qed.

Lemma gaf_plays o p p' d b base : p' = (if teq p dash then o else Some p) ->
  match p' with Some q => in_dir q d b /\ (length q < path_max)%nat | None => False end ->
  asm_base k rp d b = Some base -> (length (asm_file k base) < path_max)%nat ->
  plays any (get_assembler_filename w rp k o p) (fun l a => a = asm_file k base /\ did (dir_steps k base) l).
Proof.
  intros -> HP EB LB. unfold get_assembler_filename. destruct (if teq p dash then o else Some p) as [q|]; [|destruct HP].
  destruct HP as [HD LQ]. destruct (Nat.leb_spec path_max (length q)); [lia|]. rewrite (names_ok _ _ _ HD).
  unfold asm_base in EB. unfold dir_steps. unfold asm_file in *. destruct (k_asmdir k) as [dir|].
  - destruct (rp d) as [d'|]; [|discriminate].
    assert (E : base = dir ++ d' ++ str "/" ++ k_prefix k ++ b) by congruence. clear EB. subst base. cbv zeta.
    replace ((dir ++ d' ++ str "/" ++ k_prefix k ++ b) ++ str "." ++ k_stagename k ++ str ".s")
      with (dir ++ d' ++ str "/" ++ k_prefix k ++ b ++ str "." ++ k_stagename k ++ str ".s") in * by (rewrite <- !app_assoc; reflexivity).
    set (r := dir ++ _) in *. destruct (Nat.leb_spec path_max (length r)); [lia|].
    eapply (plays_bind any) with (Q2 := fun _ _ l a => a = r /\ did [] l); [apply make_dirs_plays| | |].
    + intros. apply plays_ret; [reflexivity|]. split; reflexivity.
    + discriminate.
    + intros l1 a l2 c H1 [H2 H3]. split; auto. pose proof (did_app _ _ _ _ H1 H3) as Q. rewrite app_nil_r, dirs_of_ok in Q. exact Q.
  - assert (E : base = d ++ str "/" ++ k_prefix k ++ b) by congruence. clear EB. subst base. cbv zeta.
    replace ((d ++ str "/" ++ k_prefix k ++ b) ++ str "." ++ k_stagename k ++ str ".s")
      with (d ++ str "/" ++ k_prefix k ++ b ++ str "." ++ k_stagename k ++ str ".s") in * by (rewrite <- !app_assoc; reflexivity).
    set (r := d ++ _) in *. destruct (Nat.leb_spec path_max (length r)); [lia|]. apply plays_ret; [reflexivity|]. split; reflexivity.
Qed.

(** ** One compilation *)
Definition V (L : list text) (x y : option text) (R : list (option text)) : list (option text) :=
  (Some (k_real k) :: map Some (L ++ k_append k)) ++ x :: y :: None :: R.

Lemma upd_split {A} (l : list A) : forall p x, (p < length l)%nat -> exists a y b, l = a ++ y :: b /\ length a = p /\ upd l p x = a ++ x :: b.
Proof.
  induction l as [|z l IH]; intros p x L; [cbn in L; lia|]. destruct p as [|p].
  - exists [], z, l. auto.
  - destruct (IH p x ltac:(cbn in L; lia)) as (a & y & b & E & E1 & E2). exists (z :: a), y, b. cbn. rewrite <- E, E2, E1. auto.
Qed.
Lemma aput_mid L x y R p t h : (p < length L)%nat -> aput (V L x y R) (S p) (Some t) h = (Val (V (upd L p t) x y R), h).
Proof.
  intros LP. destruct (upd_split L p t LP) as (a & z & b & -> & E1 & E2). rewrite E2. unfold V.
  replace ((Some (k_real k) :: map Some ((a ++ z :: b) ++ k_append k)) ++ x :: y :: None :: R)
    with ((Some (k_real k) :: map Some a) ++ Some z :: (map Some (b ++ k_append k) ++ x :: y :: None :: R)).
  2: { cbn. f_equal. rewrite <- (app_assoc a), (map_app _ a), <- app_assoc. reflexivity. }
  rewrite aput_at by (cbn; rewrite map_length; lia). f_equal. f_equal. cbn. f_equal.
  rewrite <- (app_assoc a), (map_app _ a), <- app_assoc. reflexivity.
Qed.
Lemma aget_mid L x y R p t h : nth_error L p = Some t -> aget (V L x y R) (S p) h = (Val (Some t), h).
Proof.
  intros E. apply aget_nth. unfold V. cbn. assert (p < length L)%nat by (apply nth_error_Some; congruence).
  rewrite nth_error_app1 by (rewrite map_length, app_length; lia). rewrite nth_error_map.
  rewrite nth_error_app1 by lia. rewrite E. reflexivity.
Qed.
Lemma aput_o1 L x y R z n h : n = (1 + length L + length (k_append k))%nat -> aput (V L x y R) n z h = (Val (V L z y R), h).
Proof. intros ->. unfold V. apply aput_at. cbn. rewrite map_length, app_length. reflexivity. Qed.
Lemma aput_o2 L x y R z n h : n = (1 + length L + length (k_append k) + 1)%nat -> aput (V L x y R) n z h = (Val (V L x z R), h).
Proof.
  intros ->. unfold V. replace (x :: y :: None :: R) with ([x] ++ y :: None :: R) by reflexivity. rewrite app_assoc.
  rewrite aput_at by (rewrite app_length; cbn; rewrite map_length, app_length; lia). rewrite <- app_assoc. reflexivity.
Qed.
Lemma cargs_V L a b R : cargs (V L (Some a) (Some b) R) = k_real k :: L ++ k_append k ++ [a; b].
Proof.
  unfold V. cbn. f_equal. rewrite app_assoc. induction (L ++ k_append k) as [|z l IH]; cbn; [reflexivity|]. rewrite IH. reflexivity.
Qed.

Definition cmdline (L : list (tag * text)) (act : text) (inp : option text) (lang : bool) (o : text) : list text :=
  k_real k :: map (fill act inp lang) L ++ k_append k ++ [str "-o"; o].

(* The roles are filled by one word each. *)
Record roles (L : list (tag * text)) (pa pi pl : nat) (f : text) : Prop := {
  r_act : exists v, only TAct v L pa;
  r_in : only TIn f L pi;
  r_lang : pl = 0%nat /\ (forall q v, nth_error L q <> Some (TLang, v)) \/
           exists p v, pl = S p /\ only TLang v L p /\ aslang (Some v) = Some (if optionb v then str "-xassembler" else str "assembler") }.

Lemma upd_act L v p x (g : tag * text -> text) : only TAct v L p ->
  upd (map g L) p x = map (fun y => match fst y with TAct => x | _ => g y end) L.
Proof.
  intros O. rewrite (upd_only TAct v L p x g O) by (exists TAct; split; [reflexivity|discriminate]). apply map_ext. intros [[] y]; reflexivity.
Qed.
Lemma upd_in L v p x (g : tag * text -> text) : only TIn v L p ->
  upd (map g L) p x = map (fun y => match fst y with TIn => x | _ => g y end) L.
Proof.
  intros O. rewrite (upd_only TIn v L p x g O) by (exists TIn; split; [reflexivity|discriminate]). apply map_ext. intros [[] y]; reflexivity.
Qed.
Lemma upd_lang L v p x (g : tag * text -> text) : only TLang v L p ->
  upd (map g L) p x = map (fun y => match fst y with TLang => x | _ => g y end) L.
Proof.
  intros O. rewrite (upd_only TLang v L p x g O) by (exists TLang; split; [reflexivity|discriminate]). apply map_ext. intros [[] y]; reflexivity.
Qed.
Lemma only_lt t v L p : only t v L p -> (p < length L)%nat.
Proof. intros [E _]. apply nth_error_Some. congruence. Qed.

(* The last command of a compilation. *)
Lemma last_cmd L pa pi pl f (g : tag * text -> text) x y R as1 o h (K : list text -> M Z) n :
  roles L pa pi pl f -> (forall t, fst t = TLang \/ fst t = TPlain -> g t = snd t) ->
  n = (1 + length L + length (k_append k))%nat ->
  (get u1 <- aput (V (map g L) x y R) (S pa) (Some (str "-c"));
   get u2 <- aput u1 (S pi) (Some as1);
   get u3 <- aput u2 n (Some (str "-o"));
   get u4 <- aput u3 (n + 1) (Some o);
   get u5 <- (if Nat.eqb pl 0 then ret u4
              else get x <- aget u4 pl; aput u4 pl (aslang x));
   K (cargs u5)) h = K (cmdline L (str "-c") (Some as1) true o) h.
Proof.
  intros [(va & RA) RI RL] G ->. pose proof (only_lt _ _ _ _ RA). pose proof (only_lt _ _ _ _ RI).
  erewrite bind_val by (apply aput_mid; rewrite map_length; auto). rewrite (upd_act _ _ _ _ _ RA).
  erewrite bind_val by (apply aput_mid; rewrite map_length; auto). rewrite (upd_in _ _ _ _ _ RI).
  erewrite bind_val by (apply aput_o1; rewrite map_length; reflexivity).
  erewrite bind_val by (apply aput_o2; rewrite map_length; reflexivity).
  destruct RL as [[-> NL]|(p & v & -> & RL & AL)].
  - cbn [Nat.eqb]. erewrite bind_val by reflexivity. rewrite cargs_V. unfold cmdline. f_equal. f_equal. f_equal.
    apply map_ext_in. intros [t z] I. destruct t; cbn; auto.
    + exfalso. apply In_nth_error in I. destruct I as [q I]. exact (NL _ _ I).
    + exact (G (TPlain, z) (or_intror eq_refl)).
  - cbn [Nat.eqb]. pose proof (only_lt _ _ _ _ RL) as LL. destruct RL as [E U].
    erewrite bind_val.
    2: { erewrite bind_val.
         2: { apply aget_mid. rewrite nth_error_map, E. cbn. rewrite (G (TLang, v) (or_introl eq_refl)). reflexivity. }
         cbn [snd]. rewrite AL. apply aput_mid. rewrite map_length. exact LL. }
    rewrite (upd_lang L v p _ _ (conj E U)). rewrite cargs_V. unfold cmdline. f_equal. f_equal. f_equal.
    apply map_ext_in. intros [t z] I. destruct t; cbn; auto.
    + apply In_nth_error in I. destruct I as [q I]. pose proof (U _ _ I). subst q. rewrite E in I. inversion I; subst. reflexivity.
    + exact (G (TPlain, z) (or_intror eq_refl)).
Qed.

Lemma stage_plays base : (k_stage k = Patched -> k_stagename k = str "patched") ->
  plays zero1 (match k_stage k with Patched => do_generate_kpatch w k (asm_file k base) | _ => ret (0, asm_file k base) end)
    (fun l r => snd r = ready k base /\ exists found, did (stage_steps k base found) l /\ (k_stage k = Patched -> found_ok base found l)).
Proof.
  intros SN. unfold stage_steps, ready, asm_file in *. destruct (k_stage k).
  - apply plays_ret; [reflexivity|]. split; [reflexivity|]. exists true. split; [reflexivity|discriminate].
  - rewrite (SN eq_refl). change (base ++ str "." ++ str "patched" ++ str ".s") with (base ++ str ".patched.s").
    refine (plays_weaken _ _ _ _ (generate_plays w rp k base) _). intros l r [H1 (found & H2 & H3)]. split; auto. exists found. auto.
  - apply plays_ret; [reflexivity|]. split; [reflexivity|]. exists true. split; [reflexivity|discriminate].
Qed.

Definition single (a : action) : Prop := a = ACompile \/ a = AAsm \/ a = AAsmCpp \/ a = AGen.
Definition first_step (a : action) (L : list (tag * text)) (f asm : text) : ev :=
  match a with
  | AAsm => Copy f asm
  | AAsmCpp => Run (k_real k) (cmdline L (str "-E") None false asm)
  | _ => Run (k_real k) (cmdline L (str "-S") None false asm)
  end.
Definition last_step (a : action) (L : list (tag * text)) (as1 o : text) : ev :=
  match a with AGen => Copy as1 o | _ => Run (k_real k) (cmdline L (str "-c") (Some as1) true o) end.

Lemma single_plays c L pa pi pl f o d b base R : single (l_action c) ->
  (k_stage k = Patched -> k_stagename k = str "patched") ->
  l_argv c = V (map snd L) None None R -> l_argc c = (1 + length L + length (k_append k))%nat -> l_act c = S pa -> l_input c = S pi -> l_lang c = pl ->
  roles L pa pi pl f -> (l_action c = AGen -> only TAct (str "-S") L pa) ->
  l_out c = Some o -> in_dir o d b -> (length o < path_max)%nat ->
  asm_base k rp d b = Some base -> (length (asm_file k base) < path_max)%nat ->
  plays zero (compile_single w rp k c) (fun l _ => exists found,
    did (dir_steps k base ++ [first_step (l_action c) L f (asm_file k base)] ++ stage_steps k base found ++
         [last_step (l_action c) L (ready k base) o]) l /\ (k_stage k = Patched -> found_ok base found l)).
Proof.
  intros SA SN EV EC EA EI EL RO GA EO ID LO AB LA. unfold compile_single. rewrite EO, EV, EC, EA, EI, EL.
  pose proof RO as [(va & RA) RI RL]. pose proof (only_lt _ _ _ _ RA) as LPA. pose proof (only_lt _ _ _ _ RI) as LPI.
  set (act1 := match l_action c with AAsmCpp => str "-E" | _ => str "-S" end).
  assert (F1 : map (fun y : tag * text => match fst y with TAct => act1 | _ => snd y end) L = map (fill act1 None false) L).
  { apply map_ext. intros [[] y]; reflexivity. }
  apply plays_val with (a := V (map (fill act1 None false) L) None None R).
  { intros h. rewrite <- F1. destruct SA as [E|[E|[E|E]]]; subst act1; rewrite E in *.
    1-3: rewrite aput_mid by (rewrite map_length; auto); rewrite (upd_act _ _ _ _ _ RA); reflexivity.
    unfold ret. f_equal. f_equal. f_equal. apply map_ext_in. intros [t y] I. destruct t; auto. cbn.
    destruct (GA eq_refl) as [E1 U]. apply In_nth_error in I. destruct I as [q I]. pose proof (U _ _ I). subst q.
    rewrite E1 in I. inversion I. reflexivity. }
  refine (plays_bind any zero _ _ _ (fun _ _ l _ => exists found,
    did ([first_step (l_action c) L f (asm_file k base)] ++ stage_steps k base found ++ [last_step (l_action c) L (ready k base) o]) l /\
    (k_stage k = Patched -> found_ok base found l)) _ (gaf_plays (Some o) o (Some o) d b base _ (conj ID LO) AB LA) _ _ _).
  - destruct (teq o dash) eqn:T; reflexivity.
  - intros l a [-> _] _.
    set (G := fun (v : list (option text)) => exists g x y, v = V (map g L) x y R /\ (forall t : tag * text, fst t = TLang \/ fst t = TPlain -> g t = snd t)).
    refine (plays_bind zero1 zero _ _ (fun l r => did [first_step (l_action c) L f (asm_file k base)] l /\ G (snd r)) (fun _ _ l _ => exists found,
      did (stage_steps k base found ++ [last_step (l_action c) L (ready k base) o]) l /\ (k_stage k = Patched -> found_ok base found l)) _ _ _ _ _).
    + assert (GF : forall x y, G (V (map (fill act1 None false) L) x y R)).
      { intros x y. exists (fill act1 None false), x, y. split; [reflexivity|]. intros [[] z] [H|H]; try discriminate H; reflexivity. }
      assert (RC : l_action c <> AAsm -> first_step (l_action c) L f (asm_file k base) = Run (k_real k) (cmdline L act1 None false (asm_file k base)) ->
        plays zero1 (get v2 <- aput (V (map (fill act1 None false) L) None None R) (1 + length L + length (k_append k)) (Some (str "-o"));
               get v3 <- aput v2 (1 + length L + length (k_append k) + 1) (Some (asm_file k base));
               get rv <- run_cmd w (cargs v3) None; ret (rv, v3))
          (fun l r => did [first_step (l_action c) L f (asm_file k base)] l /\ G (snd r))).
      { intros _ ->. apply plays_val with (a := V (map (fill act1 None false) L) (Some (str "-o")) None R).
        { intros h. apply aput_o1. rewrite map_length. reflexivity. }
        apply plays_val with (a := V (map (fill act1 None false) L) (Some (str "-o")) (Some (asm_file k base)) R).
        { intros h. apply aput_o2. rewrite map_length. reflexivity. }
        refine (plays_bind zero zero1 _ _ _ (fun _ _ l r => did [] l /\ G (snd r)) _ (run_cmd_plays w _ None) _ _ _).
        - intros l1 rv _ Z. apply plays_ret; [exact Z|]. split; [reflexivity|apply GF].
        - intros rv Z. eexists. split; [reflexivity|exact Z].
        - intros l1 rv l2 r D1 [D2 H]. split; auto. pose proof (did_app _ _ _ _ D1 D2) as D. rewrite cargs_V in D. exact D. }
      destruct SA as [E|[E|[E|E]]]; subst act1; rewrite E in *; try (refine (RC _ _); [discriminate|reflexivity]).
      apply plays_val with (a := Some f).
      { intros h. apply aget_mid. rewrite nth_error_map. destruct RI as [E1 _]. rewrite E1. reflexivity. }
      refine (plays_bind zero zero1 _ _ _ (fun _ _ l r => did [] l /\ G (snd r)) _ (copy_file_plays w _ _) _ _ _).
      * intros l1 rv _ Z. apply plays_ret; [exact Z|]. split; [reflexivity|apply GF].
      * intros rv Z. eexists. split; [reflexivity|exact Z].
      * intros l1 rv l2 r D1 [D2 H]. split; auto. exact (did_app _ _ _ _ D1 D2).
    + intros l1 [rv v] [_ (g & x & y & Ev & Hg)] Z. cbn [snd] in Ev. subst v. unfold zero1 in Z. cbn [fst] in Z. rewrite Z. cbn [negb].
      refine (plays_bind zero1 zero _ _ _ (fun _ _ l _ => did [last_step (l_action c) L (ready k base) o] l) _ (stage_plays base SN) _ _ _).
      * intros l2 [rv1 as1] [Ea _] Z1. cbn [snd] in Ea. subst as1. unfold zero1 in Z1. cbn [fst] in Z1. rewrite Z1. cbn [negb].
        assert (RC : plays zero (get u1 <- aput (V (map g L) x y R) (S pa) (Some (str "-c"));
               get u2 <- aput u1 (S pi) (Some (ready k base));
               get u3 <- aput u2 (1 + length L + length (k_append k)) (Some (str "-o"));
               get u4 <- aput u3 (1 + length L + length (k_append k) + 1) (Some o);
               get u5 <- (if Nat.eqb pl 0 then ret u4 else get x <- aget u4 pl; aput u4 pl (aslang x));
               run_cmd w (cargs u5) None) (fun l _ => did [Run (k_real k) (cmdline L (str "-c") (Some (ready k base)) true o)] l)).
        { intros h. rewrite (last_cmd L pa pi pl f g x y R (ready k base) o h (fun a => run_cmd w a None) _ RO Hg eq_refl).
          apply (run_cmd_plays w (cmdline L (str "-c") (Some (ready k base)) true o) None h). }
        unfold last_step. destruct SA as [E|[E|[E|E]]]; rewrite E; try exact RC.
        apply copy_file_plays.
      * intros [rv1 as1] Z1. unfold zero1 in Z1. cbn [fst] in Z1. rewrite Z1. exists rv1. split; [reflexivity|exact Z1].
      * intros l2 r l3 z [_ (found & D & F)] D2. exists found. split; [apply did_app; auto|]. intros P. specialize (F P).
        unfold found_ok in *. apply in_or_app. auto.
    + intros [rv v] Z. unfold zero1 in Z. cbn [fst] in Z. rewrite Z. exists rv. split; [reflexivity|exact Z].
    + intros l1 r l2 z [D _] (found & D2 & F). exists found. split; [apply did_app; auto|]. intros P. specialize (F P).
      unfold found_ok in *. apply in_or_app. auto.
  - discriminate.
  - intros l1 a l2 z [_ D] (found & D2 & F). exists found. split; [apply did_app; auto|]. intros P. specialize (F P).
    unfold found_ok in *. apply in_or_app. auto.
Qed.
End World.

(** ** The command line *)
Lemma nth_argv ws r T p t v : nth_error (all_slots ws) p = Some (Some (t, v)) ->
  nth (1 + p) (Some r :: map (option_map snd) (all_slots ws) ++ T) None = Some v.
Proof.
  intros E. cbn. assert (p < length (all_slots ws))%nat by (apply nth_error_Some; congruence).
  rewrite app_nth1 by (rewrite map_length; auto). apply nth_error_nth. rewrite nth_error_map, E. reflexivity.
Qed.

Lemma firstn_but {A} (l : list A) x : firstn (length (l ++ [x]) - 1) (l ++ [x]) = l.
Proof.
  rewrite app_length. cbn. replace (length l + 1 - 1)%nat with (length l + 0)%nat by lia. rewrite firstn_app_2. cbn. apply app_nil_r.
Qed.
Lemma after_none c s : ~ In c s -> after_last c s = None.
Proof.
  induction s as [|x s IH]; intros H; cbn; auto. cbn in H. rewrite IH by tauto. destruct (Z.eqb_spec x c); [subst; tauto|reflexivity].
Qed.
Lemma after_found c d s : ~ In c s -> after_last c (d ++ c :: s) = Some s.
Proof.
  intros H. induction d as [|x d IH]; cbn; [rewrite after_none by auto; rewrite Z.eqb_refl; reflexivity|]. rewrite IH. reflexivity.
Qed.

Lemma default_is (a : action) (s : text) d n c0 : s = [match a with ACompile => 111 | _ => 115 end] ->
  (d = [] \/ exists d', d = d' ++ str "/") -> ~ In 47 n -> c0 <> 47 ->
  default_out a (d ++ n ++ str "." ++ [c0]) = n ++ str "." ++ s.
Proof.
  intros -> D N C. assert (B : base_of (d ++ n ++ str "." ++ [c0]) = (n ++ str ".") ++ [c0]).
  { assert (~ In 47 (n ++ str "." ++ [c0])) as NI.
    { rewrite !in_app_iff. change (str ".") with [46]. intros [I|[[I|[]]|[I|[]]]]; [tauto|discriminate|tauto]. }
    unfold base_of. destruct D as [->|(d' & ->)].
    - rewrite app_nil_l. rewrite after_none by exact NI. rewrite <- app_assoc. reflexivity.
    - rewrite <- (app_assoc d'). change (str "/" ++ n ++ str "." ++ [c0]) with (47 :: (n ++ str "." ++ [c0])).
      rewrite after_found by exact NI. rewrite <- app_assoc. reflexivity. }
  unfold default_out. rewrite B, firstn_but, <- app_assoc. reflexivity.
Qed.

Lemma last_outs ws l o : outs ws = l ++ [o] -> last (map Some (outs ws)) None = Some o.
Proof. intros ->. rewrite map_app. cbn. apply last_last. Qed.

Lemma ext_type lang f n x t : f = n ++ str "." ++ x -> ~ In 46 x ->
  (if teq x (str "s") then FAsm else match x with [83] | [83; _; 120] => FAsmCpp | _ => if existsb (teq x) srcexts then FSrc else FObj end) = t ->
  get_file_type lang f = Val t.
Proof.
  intros -> H E. unfold get_file_type.
  assert (A : after_last 46 (n ++ str "." ++ x) = Some x) by (change (str "." ++ x) with (46 :: x); apply after_found; exact H).
  assert (teq (n ++ str "." ++ x) dash = false) as ->.
  { apply teq_neq. intros C. rewrite C in A. discriminate A. }
  assert (teq (n ++ str "." ++ x) (str "/dev/null") = false) as ->.
  { apply teq_neq. intros C. rewrite C in A. discriminate A. }
  rewrite A. rewrite <- E. reflexivity.
Qed.
Lemma source_type lang f : is_source f -> get_file_type lang f = Val FSrc.
Proof.
  intros (n & x & E & I). cbn [In] in I.
  repeat (destruct I as [<-|I]; [eapply ext_type; [exact E|vm_compute; intuition discriminate|reflexivity]|]). destruct I.
Qed.
Lemma asm_type lang f : is_asm f -> get_file_type lang f = Val FAsm.
Proof. intros (n & E). apply (ext_type lang f n (str "s")); [exact E|vm_compute; intuition discriminate|reflexivity]. Qed.
Lemma asmcpp_type lang f : is_asm_cpp f -> get_file_type lang f = Val FAsmCpp.
Proof. intros (n & E). apply (ext_type lang f n (str "S")); [exact E|vm_compute; intuition discriminate|reflexivity]. Qed.
Lemma object_type lang f : is_object f -> get_file_type lang f = Val FObj.
Proof.
  intros (n & x & E & I). cbn [In] in I.
  repeat (destruct I as [<-|I]; [eapply ext_type; [exact E|vm_compute; intuition discriminate|reflexivity]|]). destruct I.
Qed.

Lemma lang_word_x v l : lang_word v l -> (match v with 45 :: r => tl r | _ => v end) = l.
Proof.
  intros [->|[-> H]]; [reflexivity|]. destruct l as [|c r]; [reflexivity|]. cbn in H.
  destruct c as [|c|c]; auto; repeat (destruct c as [c|c|]; auto); contradiction.
Qed.
Lemma lang_word_as v l : l <> [] -> lang_word v l -> aslang (Some v) = Some (if optionb v then str "-xassembler" else str "assembler").
Proof.
  intros _ [->|[-> H]]; [destruct l; reflexivity|]. unfold aslang, optionb. destruct l as [|c r]; [reflexivity|]. cbn in H.
  destruct c as [|c|c]; auto; repeat (destruct c as [c|c|]; auto); contradiction.
Qed.

Definition act_of (x : kind) : action := match x with KSource => ACompile | KAsm => AAsm | KAsmCpp => AAsmCpp | KToAsm => AGen end.
Definition found_lang (ws : list wd) (pl : nat) : Prop :=
  pl = 0%nat /\ langs ws = [] \/ exists p v l, pl = S p /\ langs ws = [l] /\ lang_word v l /\ at_only TLang v (all_slots ws) p.

Lemma init_single k ws f x o : k_stage k <> Configure -> Forall wd_ok ws -> ins ws = [f] -> (length (langs ws) <= 1)%nat ->
  is_kind k ws f x -> out_is ws f (suffix_for x) o -> o <> str "/dev/null" ->
  exists pa pi pl, init_args k (spell_all ws) = Val {| l_action := act_of x;
      l_argv := Some (k_real k) :: map (option_map snd) (all_slots ws) ++ [None] ++ repeat None (length (k_append k) + 2);
      l_argc := S (length (spell_all ws)); l_inputs := None; l_ninputs := 1; l_input := S pi; l_act := S pa; l_lang := pl; l_out := Some o |} /\
    at_only TAct (act_word (match x with KToAsm => false | _ => true end)) (all_slots ws) pa /\ at_only TIn f (all_slots ws) pi /\ found_lang ws pl.
Proof.
  intros NC K EI LL KD OI ND.
  assert (EA : acts ws = [match x with KToAsm => false | _ => true end]) by (destruct x; cbn [is_kind] in KD; tauto).
  unfold init_args. set (a0 := match spell_all ws with [a] => _ | _ => APass end).
  rewrite scan_all by exact K. cbn [fst snd]. rewrite zip_argv.
  destruct (effs_act ws _ EA 1 (scan0 a0)) as (pa & A1 & A2 & A3).
  destruct (effs_in ws _ EI 1 (scan0 a0)) as (pi & I1 & I2).
  assert (FL : found_lang ws (sc_lang (effs ws 1 (scan0 a0)))).
  { destruct (langs ws) as [|l [|? ?]] eqn:EL; [| |cbn in LL; lia].
    - left. rewrite effs_lang0 by auto. auto.
    - right. destruct (effs_lang ws l K EL 1 (scan0 a0)) as (p & v & P1 & P2 & P3). exists p, v, l. auto. }
  set (pl := sc_lang (effs ws 1 (scan0 a0))) in *.
  pose proof (effs_out ws 1 (scan0 a0)) as EO. cbn [sc_out scan0] in EO.
  pose proof (effs_n ws 1 (scan0 a0)) as EN. rewrite EI in EN. cbn in EN.
  set (T := [None] ++ repeat None (length (k_append k) + 2)).
  set (argv := Some (k_real k) :: map (option_map snd) (all_slots ws) ++ T).
  assert (NI : nth (sc_input (effs ws 1 (scan0 a0))) argv None = Some f).
  { rewrite I1. destruct I2 as [I2 _]. apply (nth_argv ws _ T pi TIn f I2). }
  rewrite NI, A1, A2, I1, EN.
  assert (DC : decide (if match x with KToAsm => false | _ => true end then ACompile else AGen) 1 =
    (if match x with KToAsm => false | _ => true end then ACompile else AGen)) by (destruct x; reflexivity).
  cbv zeta. rewrite DC.
  set (a3 := if match x with KToAsm => false | _ => true end then ACompile else AGen).
  assert (OF : out_file a3 (sc_out (effs ws 1 (scan0 a0))) (Some f) = Some o).
  { rewrite EO. destruct OI as [(l & E)|(E & d & n & c0 & Ef & D & N & C & Eo)].
    - rewrite (last_outs ws l o E). destruct x; reflexivity.
    - rewrite E. cbn [map last]. assert (out_file a3 None (Some f) = if teq f dash then None else Some (default_out a3 f)) as ->
        by (subst a3; destruct x; reflexivity).
      assert (teq f dash = false) as ->.
      { apply teq_neq. intros E1. rewrite Ef in E1. apply (f_equal (@length Z)) in E1. rewrite !app_length in E1. cbn in E1. lia. }
      rewrite Ef, (default_is a3 (suffix_for x) d n c0); auto; [rewrite Eo; reflexivity|]. subst a3. destruct x; reflexivity. }
  rewrite OF. assert (PN : pass_null (Some o) a3 = a3).
  { unfold pass_null. rewrite teq_neq by exact ND. reflexivity. }
  rewrite PN.
  assert (TY : typed (k_asm k) (Some f) (nth pl argv None) a3 = Val (act_of x)).
  { subst a3. destruct x; cbn [act_of typed]; cbn [is_kind] in KD.
    - destruct KD as [_ [S|(-> & l & EL & N1 & N2)]].
      + rewrite (source_type _ _ S). reflexivity.
      + destruct FL as [[_ FL]|(p & v & l' & E1 & E2 & E3 & E4 & _)]; [rewrite FL in EL; discriminate|].
        assert (l' = l) by congruence. subst l'.
        assert (nth pl argv None = Some v) as -> by (rewrite E1; exact (nth_argv ws _ T p TLang v E4)).
        unfold get_file_type. rewrite (teq_refl dash : teq (str "-") dash = true). cbv zeta. rewrite (lang_word_x v l E3).
        rewrite (teq_neq _ _ N1), (teq_neq _ _ N2). reflexivity.
    - destruct KD as (_ & KA & S). rewrite (asm_type _ _ S). cbn [obind by_type]. rewrite KA. reflexivity.
    - destruct KD as (_ & KA & S). rewrite (asmcpp_type _ _ S). cbn [obind by_type]. rewrite KA. reflexivity.
    - reflexivity. }
  rewrite TY. exists pa, pi, pl. split; [|split; [exact A3|split; [exact I2|exact FL]]].
  destruct (k_stage k); try contradiction; subst a3; destruct x; reflexivity.
Qed.

Lemma found_roles k ws pl : words_ok k ws -> roles_kept k ws -> Forall wd_ok ws -> found_lang ws pl ->
  let sl := map (dropslot k) (all_slots ws) in
  track 1 1 sl pl = 0%nat /\ (forall q v, nth_error (squeeze sl) q <> Some (TLang, v)) \/
  exists p v, track 1 1 sl pl = S p /\ only TLang v (squeeze sl) p /\ aslang (Some v) = Some (if optionb v then str "-xassembler" else str "assembler").
Proof.
  intros W (_ & _ & RK) K [[-> EL]|(p & v & l & -> & EL & LW & E & U)]; cbv zeta.
  - left. split; [apply track_below; lia|]. intros q v C. apply squeeze_nth in C. destruct C as (p & C & _).
    rewrite nth_error_map in C. destruct (nth_error (all_slots ws) p) as [[y|]|] eqn:Ep; cbn in C; try discriminate.
    destruct (dropped k (snd y)); try discriminate. inversion C; subst. exact (no_lang ws EL p v Ep).
  - right. assert (ND : dropped k v = false).
    { destruct LW as [->|[-> H]]; [apply RK; rewrite EL; left; reflexivity|]. unfold dropped.
      assert (optionb l = false) as ->; [|reflexivity].
      destruct l as [|c [|d r]]; cbn in *; auto; destruct c as [|c|c]; auto; repeat (destruct c as [c|c|]; auto); contradiction. }
    destruct (only_squeeze TLang v (map (dropslot k) (all_slots ws)) p) as (p' & P1 & P2).
    { split.
      - rewrite nth_error_map, E. cbn [option_map dropslot snd]. rewrite ND. reflexivity.
      - intros q v' C. rewrite nth_error_map in C. destruct (nth_error (all_slots ws) q) as [[y|]|] eqn:Eq; cbn [option_map dropslot] in C; try discriminate.
        destruct (dropped k (snd y)); try discriminate. inversion C; subst. exact (U q v' Eq). }
    exists p', v. split; [exact P1|]. split; [exact P2|]. destruct (list_eq_dec Z.eq_dec l []) as [->|NL].
    + destruct LW as [->|[-> _]]; reflexivity.
    + apply (lang_word_as v l NL LW).
Qed.
Lemma at_only_drop k t v ws p : at_only t v (all_slots ws) p -> dropped k v = false ->
  at_only t v (map (dropslot k) (all_slots ws)) p.
Proof.
  intros [E U] ND. split.
  - rewrite nth_error_map, E. cbn [option_map dropslot snd]. rewrite ND. reflexivity.
  - intros q v' C. rewrite nth_error_map in C. destruct (nth_error (all_slots ws) q) as [[y|]|] eqn:Eq; cbn [option_map dropslot] in C; try discriminate.
    destruct (dropped k (snd y)); try discriminate. inversion C; subst. exact (U q v' Eq).
Qed.

Lemma nth_in {A} (l : list A) n a : nth_error l n = Some a -> In a l.
Proof. apply nth_error_In. Qed.

Lemma single_runs w rp k ws f x o d b base c0 : k_stage k <> Configure -> (k_stage k = Patched -> k_stagename k = str "patched") ->
  Forall wd_ok ws -> words_ok k ws -> roles_kept k ws -> ins ws = [f] -> (length (langs ws) <= 1)%nat ->
  is_kind k ws f x -> out_is ws f (suffix_for x) o -> o <> str "/dev/null" -> in_dir o d b -> (length o < path_max)%nat ->
  asm_base k rp d b = Some base -> (length (asm_file k base) < path_max)%nat ->
  init_args k (spell_all ws) = Val c0 ->
  plays zero (emulate_cc w rp k c0) (fun l _ => exists found,
    did (dir_steps k base ++ [to_asm k ws x f (asm_file k base)] ++ stage_steps k base found ++ [to_output k ws x (ready k base) o]) l /\
    (k_stage k = Patched -> found_ok base found l)).
Proof.
  intros NC SN K W RK EI LL KD OI ND ID LO AB LA E0.
  destruct (init_single k ws f x o NC K EI LL KD OI ND) as (pa & pi & pl & E & A & I & FL). rewrite E in E0.
  assert (c0 = _) by (symmetry; apply (f_equal (fun z => match z with Val c => c | _ => c0 end) E0)). clear E0. subst c0.
  set (c0 := {| l_action := act_of x |}).
  set (sl := map (dropslot k) (all_slots ws)).
  assert (EQ : forall h, exists c', modify_args k c0 h = (Val c', h) /\ modified k c0 c' sl).
  { intros h. destruct (modify_run k c0 ws h W K) as (c' & E1 & E2 & _); [reflexivity|reflexivity|left; reflexivity|]. eauto. }
  set (va := act_word (match x with KToAsm => false | _ => true end)) in *.
  assert (DA : dropped k va = false) by (destruct RK as (R1 & R2 & _); subst va; destruct x; assumption).
  destruct (only_squeeze _ _ _ _ (at_only_drop k _ _ _ _ A DA)) as (pa' & A1 & A2).
  assert (DI : dropped k f = false).
  { eapply in_not_dropped; [exact K|]. destruct I as [I _]. exact (nth_in _ _ _ I). }
  destruct (only_squeeze _ _ _ _ (at_only_drop k _ _ _ _ I DI)) as (pi' & I1 & I2).
  pose proof (found_roles k ws pl W RK K FL) as FR. cbv zeta in FR. fold sl in FR, A1, A2, I1, I2.
  assert (EM : forall h, emulate_cc w rp k c0 h = mbind (modify_args k c0) (fun c' => match l_action c' with
    | ACompile | AAsm | AAsmCpp | AGen => compile_single w rp k c' | AMulti => build_multiple w rp k c' | _ => ret 129 end) h).
  { intros h. unfold emulate_cc. subst c0. cbn [l_action]. destruct x; reflexivity. }
  intros h. rewrite EM. destruct (EQ h) as (c' & E1 & R & E2). erewrite bind_val by exact E1.
  assert (AC : l_action c' = act_of x) by (rewrite E2; reflexivity). rewrite AC.
  replace (match act_of x with
    | ACompile | AAsm | AAsmCpp | AGen => compile_single w rp k c' | AMulti => build_multiple w rp k c' | _ => ret 129 end)
    with (compile_single w rp k c') by (destruct x; reflexivity).
  assert (EL : squeeze sl = line k ws) by apply line_squeeze.
  pose proof (single_plays w rp k c' (squeeze sl) pa' pi' (track 1 1 sl pl) f o d b base R) as P. rewrite AC in P.
  assert (P' : plays zero (compile_single w rp k c') (fun l _ => exists found,
    did (dir_steps k base ++ [first_step k (act_of x) (squeeze sl) f (asm_file k base)] ++ stage_steps k base found ++
         [last_step k (act_of x) (squeeze sl) (ready k base) o]) l /\ (k_stage k = Patched -> found_ok base found l))).
  { apply P; clear P; try assumption.
    - destruct x; cbn; unfold single; tauto.
    - rewrite E2. reflexivity.
    - rewrite E2. reflexivity.
    - rewrite E2. cbn [l_act]. exact A1.
    - rewrite E2. cbn [l_input]. exact I1.
    - rewrite E2. reflexivity.
    - constructor; [exists va; exact A2|exact I2|exact FR].
    - intros EG. subst va. destruct x; try discriminate EG. exact A2.
    - rewrite E2. reflexivity. }
  rewrite EL in P'. assert (F1 : first_step k (act_of x) (line k ws) f (asm_file k base) = to_asm k ws x f (asm_file k base)) by (destruct x; reflexivity).
  assert (F2 : last_step k (act_of x) (line k ws) (ready k base) o = to_output k ws x (ready k base) o) by (destruct x; reflexivity).
  rewrite F1, F2 in P'. exact (P' h).
Qed.
