(** Theorems about kpatch_strip as a program: C124, and C92 for a whole file. *)
From Coq Require Import String Permutation.
From Verif Require Import Base BaseProofs RelocModel RelocSpec TextModel StorageModel StripModel StripProperties FixupModel FixupSpec FixupProofs
  FixupProperties StripMainModel StripMainSpec StripMainProofs.
Open Scope list_scope.

(** ** C92: --rel-fixup on a whole file, x86-64 and AArch64 *)
Theorem C92_file : forall A dyn orig p p', A = fx86 \/ A = fa64 -> rel_fixup A dyn orig p = FOk p' ->
  o_syms p' = o_syms p /\ o_type p' = o_type p /\ o_shoff p' = o_shoff p /\ o_phnum p' = o_phnum p /\
  length (o_secs p') = length (o_secs p) /\
  forall k s, nth_error (o_secs p) k = Some s -> exists s', nth_error (o_secs p') k = Some s' /\ same_but_data s s' /\
    ((0 < k)%nat -> data_fixed p k s s').
Proof.
  intros A dyn orig p p' HA. apply rel_fixup_file; destruct HA as [-> | ->]; try reflexivity; [exact tls_keeps_x86|exact tls_keeps_a64].
Qed.
(** Every section of relocations is gone through: none is left with a symbol that does not exist,
    and a section of relocations without addends is refused. *)
Theorem C92_file_rel : forall A dyn orig p k s, nth_error (o_secs p) k = Some s -> (0 < k)%nat -> s_type s = 9 ->
  A = fx86 \/ A = fa64 -> forall p', rel_fixup A dyn orig p <> FOk p'.
Proof.
  intros A dyn orig p k s N K T HA p' H. unfold rel_fixup in H. destruct (load_ok _ && load_ok _); [|discriminate].
  assert (Cp : f_copy A = false) by (destruct HA as [-> | ->]; reflexivity).
  assert (Tk : tls_keeps A) by (destruct HA as [-> | ->]; [exact tls_keeps_x86|exact tls_keeps_a64]).
  assert (L : (k < length (o_secs p))%nat) by (apply nth_error_Some; congruence).
  assert (G : forall m n q, upto_state p q n -> (1 <= n <= k)%nat -> (n + m = length (o_secs p))%nat -> fixup_secs A dyn orig (seq n m) q = FOk p' -> False).
  { clear H. induction m as [|m IH]; intros n q U B E H; [lia|]. cbn [seq fixup_secs] in H.
    destruct (nth_error (o_secs q) n) as [s1|] eqn:Nq; [|discriminate].
    destruct (nth_error (o_secs p) n) as [x|] eqn:Np; [|apply nth_error_None in Np; lia].
    assert (Ty : s_type s1 = s_type x).
    { destruct U as (_ & _ & _ & _ & _ & Q). destruct (Q n x Np) as (y & Ey & Sm & _). rewrite Nq in Ey. injection Ey as <-. apply Sm. }
    unfold SHT_RELA, SHT_REL in H. rewrite Ty in H. destruct (Nat.eq_dec n k) as [->|Ne].
    - rewrite N in Np. injection Np as <-. rewrite T in H. discriminate.
    - destruct (s_type x =? 4) eqn:E4.
      + destruct (fixup_sec A dyn orig q n s1) as [q1| | |] eqn:F; try discriminate.
        apply (IH (S n) q1); try lia; [|exact H]. apply (fixup_sec_step A dyn orig p q n x s1 q1); try assumption; lia.
      + destruct (s_type x =? 9); [discriminate|]. apply (IH (S n) q); try lia; [|exact H]. apply (upto_skip p q n x); try assumption; lia. }
  exact (G (length (o_secs p) - 1)%nat 1%nat p (upto_start p) ltac:(lia) ltac:(lia) H).
Qed.
Print Assumptions C92_file.
Print Assumptions C92_file_rel.

(** ** C124 *)
(** What a command line asks for is what is done. *)
Theorem C124_asks : forall args m f1 f2, strip_args args = SRun m f1 f2 <-> asks args m f1 f2.
Proof. exact args_asks. Qed.
(** Any other command line: failure, and no file is opened. *)
Theorem C124_usage : forall A dyn bias mk fs args, (forall m f1 f2, ~ asks args m f1 f2) ->
  strip_main A dyn bias mk fs args = (-1, fs, []).
Proof. intros. unfold strip_main. now rewrite args_usage. Qed.

(** What the action makes of the two objects *)
Definition made (A : farch) (dyn : list text) (bias : bool) (m : mode) (o1 : obj) (o2 : option obj) (o : obj) : Prop :=
  match m with
  | MStrip => strip o1 = Some o
  | MFixup => exists p, o2 = Some p /\ rel_fixup A dyn o1 p = FOk o
  | MUndo => exists p, o2 = Some p /\ undo_link bias o1 p = Some o
  end.
Lemma run_made A dyn bias m o1 o2 o : run_mode A dyn bias m o1 o2 = Some o <-> made A dyn bias m o1 o2 o.
Proof.
  destruct m, o2 as [p|]; cbn [run_mode made].
  - tauto.
  - tauto.
  - destruct (rel_fixup A dyn o1 p) as [q| | |] eqn:E; (split; [intros H; try discriminate; injection H as <-; eauto|intros (x & X & Y); injection X as <-; congruence]).
  - split; [discriminate|intros (x & X & _); discriminate].
  - split; [eauto|intros (x & X & Y); congruence].
  - split; [discriminate|intros (x & X & _); discriminate].
Qed.

(** Success or failure: only the second file can change; on success it is what the action made
    of the two. *)
Theorem C124_effect : forall A dyn bias mk fs args m f1 f2 r fs' evs, asks args m f1 f2 ->
  strip_main A dyn bias mk fs args = (r, fs', evs) ->
  (r = 0 \/ r = -1) /\ (forall n, n <> f2 -> fs' n = fs n) /\
  (r = 0 -> exists x1 o1 o2 o, fs f1 = Some x1 /\ sf_obj x1 = Some o1 /\ made A dyn bias m o1 o2 o /\
     (o2 <> None -> exists x2, fs f2 = Some x2 /\ sf_obj x2 = o2) /\
     exists w, fs' f2 = Some {| sf_obj := Some o; sf_write := w |}) /\
  (r = -1 -> fs' f2 = fs f2 \/ m = MStrip /\ fs f2 = None /\ mk f2 = true /\ fs' f2 = Some {| sf_obj := None; sf_write := true |}).
Proof.
  intros A dyn bias mk fs args m f1 f2 r fs' evs As H. apply args_asks in As. unfold strip_main in H. rewrite As in H.
  assert (P : forall g n x k, k <> n -> fput g n x k = g k).
  { intros g n x k N. unfold fput. destruct (list_eqb k n) eqn:E; [apply list_eqb_eq in E; contradiction|reflexivity]. }
  assert (Ps : forall g n x, fput g n x n = Some x) by (intros; unfold fput; now rewrite (proj2 (list_eqb_eq _ _) eq_refl)).
  unfold open_elf at 1 in H. destruct (fs f1) as [x1|] eqn:E1.
  2: { cbn [andb negb] in H. injection H as <- <- <-. repeat split; auto; try discriminate. }
  destruct (sf_write x1) eqn:W1; [|cbn [negb] in H; injection H as <- <- <-; repeat split; auto; discriminate].
  cbn [orb] in H. destruct (sf_obj x1) as [o1|] eqn:O1; [|cbn [negb] in H; injection H as <- <- <-; repeat split; auto; discriminate].
  cbn [negb] in H.
  set (cr := match m with MStrip => true | _ => false end) in *.
  unfold open_elf in H. destruct (fs f2) as [x2|] eqn:E2.
  - destruct (sf_write x2) eqn:W2; [|cbn [negb] in H; injection H as <- <- <-; repeat split; auto; discriminate].
    destruct (cr || _) eqn:C; cbn [negb] in H; [|injection H as <- <- <-; repeat split; auto; discriminate].
    rewrite E1, E2 in H. destruct x1 as [ox wx]. cbn [sf_obj sf_write] in O1, W1. subst ox wx.
    destruct (run_mode A dyn bias m o1 (sf_obj x2)) as [o|] eqn:R.
    + injection H as <- <- <-. repeat split; auto; try discriminate.
      intros _. apply run_made in R. exists {| sf_obj := Some o1; sf_write := true |}, o1, (sf_obj x2), o. repeat split; auto; [eauto|].
      eexists. apply Ps.
    + injection H as <- <- <-. repeat split; auto; discriminate.
  - destruct (cr && mk f2) eqn:C; cbn [negb] in H; [|injection H as <- <- <-; repeat split; auto; discriminate].
    apply andb_prop in C as (C1 & C2). assert (M : m = MStrip) by (destruct m; [reflexivity|discriminate|discriminate]).
    assert (N12 : f1 <> f2) by congruence. rewrite (P _ _ _ _ N12), E1, Ps in H.
    destruct x1 as [ox wx]. cbn [sf_obj sf_write] in O1, W1. subst ox wx. cbn [sf_obj sf_write] in H.
    destruct (run_mode A dyn bias m o1 None) as [o|] eqn:R.
    + injection H as <- <- <-. repeat split; auto; try discriminate.
      * intros n Nn. now rewrite !P.
      * intros _. apply run_made in R. exists {| sf_obj := Some o1; sf_write := true |}, o1, None, o. repeat split; auto; [congruence|].
        eexists. apply Ps.
    + injection H as <- <- <-. repeat split; auto; try discriminate.
Qed.
(** When both files can be opened and the action succeeds, so does the program. *)
Theorem C124_done : forall A dyn bias mk fs args m f1 f2 o1 o2 o, asks args m f1 f2 ->
  fs f1 = Some {| sf_obj := Some o1; sf_write := true |} ->
  (fs f2 = Some {| sf_obj := o2; sf_write := true |} \/ m = MStrip /\ fs f2 = None /\ mk f2 = true) ->
  made A dyn bias m o1 o2 o ->
  exists fs' evs, strip_main A dyn bias mk fs args = (0, fs', evs) /\ fs' f2 = Some {| sf_obj := Some o; sf_write := true |}.
Proof.
  intros A dyn bias mk fs args m f1 f2 o1 o2 o As F1 F2 M. apply args_asks in As. unfold strip_main. rewrite As.
  assert (Ps : forall g n x, fput g n x n = Some x) by (intros; unfold fput; now rewrite (proj2 (list_eqb_eq _ _) eq_refl)).
  unfold open_elf at 1. rewrite F1. cbn [sf_write sf_obj orb negb].
  destruct F2 as [F2|(-> & F2 & K)].
  - unfold open_elf. rewrite F2. cbn [sf_write sf_obj].
    assert (C : (match m with MStrip => true | _ => false end || match o2 with Some _ => true | None => false end) = true).
    { destruct m; [reflexivity| |]; cbn [made] in M; destruct M as (p & -> & _); reflexivity. }
    rewrite C. cbn [negb]. rewrite F1, F2. cbn [sf_obj sf_write]. apply run_made in M. rewrite M. do 2 eexists. split; [reflexivity|]. apply Ps.
  - unfold open_elf. rewrite F2, K. cbn [andb negb].
    assert (N : f1 <> f2) by congruence.
    assert (P1 : fput fs f2 {| sf_obj := None; sf_write := true |} f1 = fs f1).
    { unfold fput. destruct (list_eqb f1 f2) eqn:E; [apply list_eqb_eq in E; contradiction|reflexivity]. }
    rewrite P1, F1, Ps. cbn [sf_obj sf_write run_mode]. cbn [made] in M. rewrite M. do 2 eexists. split; [reflexivity|]. apply Ps.
Qed.
(** Descriptors: each that was opened is closed once. *)
Theorem C124_closed : forall A dyn bias mk fs args r fs' evs, strip_main A dyn bias mk fs args = (r, fs', evs) -> Permutation (opened evs) (closed evs).
Proof.
  intros A dyn bias mk fs args r fs' evs H. unfold strip_main in H. destruct (strip_args args) as [|m f1 f2]; [injection H as <- <- <-; constructor|].
  destruct (open_elf mk fs f1 false) as [[fs1 d1] e1] eqn:O1.
  destruct (negb e1) eqn:N1; [injection H as <- <- <-; destruct d1; cbn; auto|].
  destruct (open_elf mk fs1 f2 _) as [[fs2 d2] e2] eqn:O2.
  assert (E : evs = [SOpen f1 false d1; SOpen f2 match m with MStrip => true | _ => false end d2] ++ (if d1 then [SClose f1] else []) ++ (if d2 then [SClose f2] else [])).
  { destruct (negb e2); [congruence|]. destruct (fs2 f1) as [[[q|] ?]|]; try congruence. destruct (fs2 f2) as [x2|]; try congruence.
    destruct (run_mode _ _ _ _ _ _); congruence. }
  rewrite E. destruct d1, d2; cbn; auto.
Qed.
(** Files are only created for --strip, and then only the second. *)
Theorem C124_created : forall A dyn bias mk fs args m f1 f2 r fs' evs, asks args m f1 f2 ->
  strip_main A dyn bias mk fs args = (r, fs', evs) -> forall n ok, In (SOpen n true ok) evs -> m = MStrip /\ n = f2.
Proof.
  intros A dyn bias mk fs args m f1 f2 r fs' evs As H n ok I. apply args_asks in As. unfold strip_main in H. rewrite As in H.
  destruct (open_elf mk fs f1 false) as [[fs1 d1] e1] eqn:O1.
  destruct (negb e1) eqn:N1; [injection H as <- <- <-; destruct d1; cbn in I; intuition discriminate|].
  destruct (open_elf mk fs1 f2 _) as [[fs2 d2] e2] eqn:O2.
  assert (E : evs = [SOpen f1 false d1; SOpen f2 match m with MStrip => true | _ => false end d2] ++ (if d1 then [SClose f1] else []) ++ (if d2 then [SClose f2] else [])).
  { destruct (negb e2); [congruence|]. destruct (fs2 f1) as [[[q|] ?]|]; try congruence. destruct (fs2 f2) as [x2|]; try congruence.
    destruct (run_mode _ _ _ _ _ _); congruence. }
  rewrite E in I. destruct m, d1, d2; cbn in I; intuition (try discriminate; try congruence).
Qed.
(** The usage text shows --undo-link with one file; such a command line is refused. *)
Theorem C124_undo_refuted : exists args, args = [str "--undo-link"; str "patch.o"] /\
  forall A dyn bias mk fs, strip_main A dyn bias mk fs args = (-1, fs, []).
Proof. eexists. split; [reflexivity|]. intros. reflexivity. Qed.
(** The original is only read, yet the action fails when it may not be written. *)
Theorem C124_readonly_refuted : exists A dyn bias mk fs m f1 f2 o1 p o, asks [str "-r"; f1; f2] m f1 f2 /\
  fs f1 = Some {| sf_obj := Some o1; sf_write := false |} /\ fs f2 = Some {| sf_obj := Some p; sf_write := true |} /\
  made A dyn bias m o1 (Some p) o /\ fst (fst (strip_main A dyn bias mk fs [str "-r"; f1; f2])) = -1.
Proof.
  exists fx86, [], false, (fun _ => false),
    (fun n => if list_eqb n (str "orig") then Some {| sf_obj := Some px; sf_write := false |}
              else if list_eqb n (str "patch.o") then Some {| sf_obj := Some px; sf_write := true |} else None),
    MFixup, (str "orig"), (str "patch.o"), px, px.
  destruct (rel_fixup fx86 [] px px) as [o| | |] eqn:E; [|vm_compute in E; discriminate|vm_compute in E; discriminate|vm_compute in E; discriminate].
  exists o. split.
  { exists (str "-r"). split; [apply (aw_letter 114); right; left; reflexivity|]. left. split; [reflexivity|]. right. discriminate. }
  split; [reflexivity|]. split; [reflexivity|]. split; [exists px; split; [reflexivity|exact E]|]. vm_compute. reflexivity.
Qed.
(** --strip that fails leaves an empty file where there was none. *)
Theorem C124_left_refuted : exists A dyn bias mk fs args f1 f2 fs' evs, asks args MStrip f1 f2 /\ fs f2 = None /\
  strip_main A dyn bias mk fs args = (-1, fs', evs) /\ fs' f2 <> None.
Proof.
  exists fx86, [], false, (fun _ => true),
    (fun n => if list_eqb n (str "in") then Some {| sf_obj := Some {| o_secs := []; o_syms := []; o_type := 1; o_shoff := 0; o_phnum := 0 |}; sf_write := true |} else None),
    [str "-s"; str "in"; str "out"], (str "in"), (str "out").
  do 2 eexists. split.
  { exists (str "-s"). split; [apply (aw_letter 115); left; reflexivity|]. left. split; [reflexivity|]. right. discriminate. }
  split; [reflexivity|]. split; [vm_compute; reflexivity|]. vm_compute. discriminate.
Qed.
Print Assumptions C124_asks.
Print Assumptions C124_usage.
Print Assumptions C124_effect.
Print Assumptions C124_done.
Print Assumptions C124_closed.
Print Assumptions C124_created.
Print Assumptions C124_undo_refuted.
Print Assumptions C124_readonly_refuted.
Print Assumptions C124_left_refuted.
Example C124_case : asks [str "--rel"; str "--"; str "-orig"; str "patch.o"] MFixup (str "-orig") (str "patch.o") /\
  (forall m f1 f2, ~ asks [str "-sr"; str "a"; str "b"] m f1 f2) /\
  exists o, rel_fixup fx86 [] px px = FOk o.
Proof.
  split; [|split].
  - exists (str "--rel"). split; [|now right]. apply (aw_name (str "rel-fixup") (str "rel") (str "-fixup")); [right; left; reflexivity|reflexivity|discriminate].
  - intros m f1 f2 H. apply args_asks in H. vm_compute in H. discriminate.
  - eexists. vm_compute. reflexivity.
Qed.
Definition pfile (op t1 s1 a1 t2 : Z) : obj :=
  {| o_secs := [nullsec; mksec ".text" 1 6 0x2000 64 7 0 0 16 (CBytes [0x48; op; 0x05; 0; 0; 0; 0]); mksec ".rodata" 1 2 0x4000 96 64 0 0 16 (CBytes []);
       mksec ".rela.text" 4 0 0 128 72 0 1 8 (CRelas [ {| r_offset := 0x2003; r_type := t1; r_sym := s1; r_addend := a1 |}; {| r_offset := 0x2003; r_type := t2; r_sym := 2; r_addend := -4 |};
         {| r_offset := 0x2003; r_type := 9; r_sym := 3; r_addend := -4 |} ])];
     o_syms := zsyms; o_type := 2; o_shoff := 200; o_phnum := 1 |}.
Example C92_file_case : rel_fixup fx86 [] ex_orig (pfile 0x8b 2 1 5 4) = FOk (pfile 0x8d 2 4 0x15 2).
Proof. vm_compute. reflexivity. Qed.
