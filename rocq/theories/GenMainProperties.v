(** C136 and C137: kpatch_gensrc as a program, and what the compiler wrapper gets from it. *)
From Coq Require Import String.
From Verif Require Import Base BaseProofs StorageModel CcModel CcSpec CcProofs CcRun CcMain CcWhole CcBuild CcFrame CcProperties TextModel DbgModel GenModel GenMainModel GenMainSpec GenMainProofs.
Open Scope list_scope.

(** ** C136: kpatch_gensrc does what its command line says. *)
(** Options in any order, each in any of its spellings, are read as what they are. *)
Theorem C136_reads : forall os wss, Forall2 says os wss -> scan (concat wss) = (os, []).
Proof. exact scan_all. Qed.
Print Assumptions C136_reads.
Example C136_reads_case : Forall2 says [OIn (str "a.s"); OFilter; OOs (str "rhel6"); OOut (str "b.s"); OEh]
  [[str "-ia.s"]; [str "-f"]; [str "--os=rhel6"]; [str "-o"; str "b.s"]; [str "--dbg-filter-eh-frame"]].
Proof.
  apply Forall2_cons; [left; exists "-i"%string; split; [reflexivity|]; right; split; [discriminate|reflexivity]|].
  apply Forall2_cons; [left; reflexivity|]. apply Forall2_cons; [right; right; reflexivity|].
  apply Forall2_cons; [left; exists "-o"%string; split; [reflexivity|]; left; reflexivity|]. apply Forall2_cons; [reflexivity|]. apply Forall2_nil.
Qed.

(** A beginning that only one name has stands for it, and one of several or of none is refused. *)
Theorem C136_shortened : forall n m v r, In m names -> n <> [] -> ~ In 61 n -> shortens n m -> (forall m', In m' names -> shortens n m' -> m' = m) ->
  scan ((str "--" ++ n) :: r) = scan ((str "--" ++ m) :: r) /\ scan ((str "--" ++ n ++ str "=" ++ v) :: r) = scan ((str "--" ++ m ++ str "=" ++ v) :: r).
Proof.
  intros n m v r I Nn En S U. assert (L := long_short n m I S U).
  assert (Em : ~ In 61 m) by (intros J; assert (Q : forallb (fun t => negb (existsb (Z.eqb 61) t)) names = true) by reflexivity; rewrite forallb_forall in Q; specialize (Q m I); assert (existsb (Z.eqb 61) m = true) by (apply existsb_exists; exists 61; auto); rewrite H in Q; discriminate).
  assert (Nm : m <> []) by (destruct S as (x & ->); destruct n; [contradiction Nn; reflexivity|discriminate]).
  destruct (find_some_name m I) as (o & _ & _ & Lm). rewrite Lm in L. destruct (snd o) as [g|g].
  - split; [rewrite !(scan_long_flag _ g) by assumption; reflexivity|]. destruct n as [|a n]; [contradiction Nn; reflexivity|]. destruct m as [|b m]; [contradiction Nm; reflexivity|].
    change (str "=") with [61]. cbn [app str]. change (str "--") with [45; 45]. cbn [app scan]. change (list_eqb (45 :: 45 :: a :: n ++ 61 :: v) (str "--")) with false. change (list_eqb (45 :: 45 :: b :: m ++ 61 :: v) (str "--")) with false.
    change (begins (str "--") (45 :: 45 :: a :: n ++ 61 :: v)) with true. change (begins (str "--") (45 :: 45 :: b :: m ++ 61 :: v)) with true. cbn [negb Z.eqb Pos.eqb skipn].
    rewrite (cut_plain (a :: n) v En : cut (a :: n ++ 61 :: v) = _), (cut_plain (b :: m) v Em : cut (b :: m ++ 61 :: v) = _), L, Lm. reflexivity.
  - split; [|rewrite !(scan_long_joined _ g) by assumption; reflexivity]. destruct r as [|w r]; [|rewrite !(scan_long_next _ g) by assumption; reflexivity].
    destruct n as [|a n]; [contradiction Nn; reflexivity|]. destruct m as [|b m]; [contradiction Nm; reflexivity|]. change (str "--") with [45; 45]. cbn [app scan].
    change (list_eqb (45 :: 45 :: a :: n) (str "--")) with false. change (list_eqb (45 :: 45 :: b :: m) (str "--")) with false.
    change (begins (str "--") (45 :: 45 :: a :: n)) with true. change (begins (str "--") (45 :: 45 :: b :: m)) with true. cbn [negb Z.eqb Pos.eqb skipn]. rewrite !cut_none by assumption. rewrite L, Lm. reflexivity.
Qed.
Print Assumptions C136_shortened.
Theorem C136_no_such_option : forall e fs n r, n <> [] -> ~ In 61 n -> ~ In n names ->
  (forall m, In m names -> ~ shortens n m) \/ (exists m m', In m names /\ In m' names /\ m <> m' /\ shortens n m /\ shortens n m') -> gmain e fs ((str "--" ++ n) :: r) = (GExit 255, fs).
Proof.
  intros e fs n r Nn En N H. assert (L := long_wrong n N H). unfold gmain. destruct n as [|a n]; [contradiction Nn; reflexivity|]. change (str "--") with [45; 45]. cbn [app scan].
  change (list_eqb (45 :: 45 :: a :: n) (str "--")) with false. change (begins (str "--") (45 :: 45 :: a :: n)) with true. cbn [negb Z.eqb Pos.eqb skipn]. rewrite cut_none by assumption. rewrite L. reflexivity.
Qed.
Print Assumptions C136_no_such_option.
Example C136_shortened_case : shortens (str "test") (str "test-mode") /\ In (str "test-mode") names /\ (forall m', In m' names -> shortens (str "test") m' -> m' = str "test-mode") /\
  ~ In (str "force") names /\ str "force-global" <> str "force-gotpcrel" /\ shortens (str "force") (str "force-global") /\ shortens (str "force") (str "force-gotpcrel").
Proof.
  split; [exists (str "-mode"); reflexivity|]. split; [vm_compute; tauto|]. split.
  { intros m' I S. assert (Q : forallb (fun m => negb (begins (str "test") m) || list_eqb m (str "test-mode")) names = true) by reflexivity. rewrite forallb_forall in Q. specialize (Q m' I).
    apply begins_spec in S. rewrite S in Q. apply list_eqb_eq. exact Q. }
  split; [vm_compute; intuition discriminate|]. split; [discriminate|]. split; [exists (str "-global")|exists (str "-gotpcrel")]; reflexivity.
Qed.
(** The letter f may be joined with what follows, and "--" ends the options. *)
Theorem C136_joined : forall w r, w <> [] -> hd 0 w <> 45 -> scan ((str "-f" ++ w) :: r) = (let '(os, ops) := scan ((str "-" ++ w) :: r) in (OFilter :: os, ops)).
Proof.
  intros w r N H. destruct w as [|a w]; [contradiction N; reflexivity|]. cbn [hd] in H. change (str "-f") with [45; 102]. change (str "-") with [45]. cbn [app scan]. change (str "--") with [45; 45]. cbn [list_eqb begins tl].
  change (45 =? 45) with true. change (102 =? 45) with false. change (45 =? 102) with false. destruct (Z.eqb_spec a 45); [contradiction|]. destruct (Z.eqb_spec 45 a); [congruence|]. cbn [negb andb].
  change (cluster (102 :: a :: w)) with (let '(os, x) := cluster (a :: w) in (OFilter :: os, x)). destruct (cluster (a :: w)) as (os, [g|]); [destruct r as [|v r]; [reflexivity|]; destruct (scan r); reflexivity|]. destruct (scan r). reflexivity.
Qed.
Print Assumptions C136_joined.
Theorem C136_end_of_options : forall os wss r, Forall2 says os wss -> scan (concat wss ++ str "--" :: r) = (os, r).
Proof. induction 1 as [|o ws os wss S _ IH]; [reflexivity|]. cbn [concat]. rewrite <- app_assoc, (scan_says _ _ _ S), IH. reflexivity. Qed.
Print Assumptions C136_end_of_options.
(** With --dbg-filter the output is the first input without debugging information, as the options ask; no other file is
    touched, and the status says how it went. *)
Theorem C136_filter : forall e fs os wss o f c r fs' x, Forall2 says os wss -> filtering os = true -> outs_of os = [o] -> makeable e o -> ~ In o (ins_of os) ->
  ins_of os = f :: r -> (length r <= 1)%nat -> readable e fs f c -> (forall g, In g r -> exists d, readable e fs g d) -> lists_fit os -> e_room e = None ->
  gmain e fs (concat wss) = (x, fs') ->
  only [o] fs fs' /\ match dbg_filter (e_arch e) (dopts_of os) (e_buf e) (input_of e f c) with
                     | Ok t => x = GExit 0 /\ fs' o = Some t | Fatal => x = GExit 1 | Crash => x = Killed | Fuel => x = Hang end.
Proof.
  intros e fs os wss o f c r fs' x Sy Fi Eo Mk No Ei Lr Rf Rr Lf Ro G.
  assert (exists is, Forall2 (fun f i => exists c, readable e fs f c /\ i = input_of e f c) (ins_of os) (input_of e f c :: is)) as (is & Rd).
  { rewrite Ei. assert (exists is, Forall2 (fun f i => exists c, readable e fs f c /\ i = input_of e f c) r is) as (is & R).
    { clear - Rr. induction r as [|g r IH]; [exists []; constructor|]. destruct (Rr g (or_introl eq_refl)) as (d & D). destruct IH as (is & R); [intros g' I; apply Rr; right; exact I|].
      exists (input_of e g d :: is). constructor; [exists d; auto|exact R]. }
    exists is. constructor; [exists c; auto|exact R]. }
  assert (O : only [o] fs fs'). { assert (W := gmain_only _ _ _ _ _ G). rewrite (scan_all _ _ Sy) in W. cbn [fst] in W. rewrite Eo in W. exact W. }
  split; [exact O|]. destruct (gmain_run e fs os wss [] o (input_of e f c :: is) Sy Eo) as (s & _ & E); try assumption.
  - rewrite Eo. constructor; [exact Mk|constructor].
  - rewrite Ei. cbn [length]. lia.
  - rewrite Eo. intros g I [<-|[]]. exact (No I).
  - rewrite G, Fi in E. destruct (dbg_filter (e_arch e) (dopts_of os) (e_buf e) (input_of e f c)); cbn [deliver] in E; assert (Ex := f_equal fst E); cbn [fst] in Ex; try exact Ex.
    split; [exact Ex|]. assert (Ef := f_equal snd E). cbn [snd] in Ef. rewrite Ef. unfold written. rewrite Ro. apply fput_same.
Qed.
Print Assumptions C136_filter.

(** With two inputs the output is the source of the patch from the first to the second. *)
Theorem C136_patch : forall e fs os wss o f0 f1 c0 c1 fs' x, Forall2 says os wss -> filtering os = false -> outs_of os = [o] -> makeable e o -> ~ In o (ins_of os) ->
  ins_of os = [f0; f1] -> readable e fs f0 c0 -> readable e fs f1 c1 -> lists_fit os -> e_room e = None ->
  gmain e fs (concat wss) = (x, fs') ->
  only [o] fs fs' /\ match GenModel.gensrc (e_arch e) (gopts_of e os) (e_buf e) (input_of e f0 c0) (input_of e f1 c1) with
                     | Ok t => x = GExit 0 /\ fs' o = Some t | Fatal => x = GExit 1 | Crash => x = Killed | Fuel => x = Hang end.
Proof.
  intros e fs os wss o f0 f1 c0 c1 fs' x Sy Fi Eo Mk No Ei R0 R1 Lf Ro G.
  assert (O : only [o] fs fs'). { assert (W := gmain_only _ _ _ _ _ G). rewrite (scan_all _ _ Sy) in W. cbn [fst] in W. rewrite Eo in W. exact W. }
  split; [exact O|]. destruct (gmain_run e fs os wss [] o [input_of e f0 c0; input_of e f1 c1] Sy Eo) as (s & _ & E); try assumption.
  - rewrite Eo. constructor; [exact Mk|constructor].
  - rewrite Ei. cbn [length]. lia.
  - rewrite Ei. constructor; [exists c0; auto|]. constructor; [exists c1; auto|constructor].
  - rewrite Eo. intros g I [<-|[]]. exact (No I).
  - rewrite G, Fi in E. destruct (GenModel.gensrc (e_arch e) (gopts_of e os) (e_buf e) (input_of e f0 c0) (input_of e f1 c1)); cbn [deliver] in E; assert (Ex := f_equal fst E); cbn [fst] in Ex; try exact Ex.
    split; [exact Ex|]. assert (Ef := f_equal snd E). cbn [snd] in Ef. rewrite Ef. unfold written. rewrite Ro. apply fput_same.
Qed.
Print Assumptions C136_patch.

(** Files for the examples *)
Definition lines (s : list string) : text := concat (map (fun x => str x ++ [10]) s).
Definition old_s := lines ["	.file	""a.c"""; "	.text"; "	.globl	f"; "	.type	f, @function"; "f:"; ".LFB0:"; "	.loc 1 3"; "	movl	$1, %eax"; "	ret"; "	.size	f, .-f"; "	.ident	""GCC"""]%string.
Definition new_s := lines ["	.file	""a.c"""; "	.text"; "	.globl	f"; "	.type	f, @function"; "f:"; ".LFB0:"; "	.loc 1 4"; "	movl	$2, %eax"; "	ret"; "	.size	f, .-f"; "	.ident	""GCC"""]%string.
Definition disk (l : list (text * text)) : files := fun n => option_map snd (find (fun x => list_eqb (fst x) n) l).
Definition ge : genv := {| e_arch := px86; e_buf := 4095; e_real := fun _ => (str "/src/", str "a.c"); e_read := fun _ => true; e_write := fun _ => true;
  e_room := None; e_torn := str "tor"; e_conf := None; e_shift := str "12"; e_junk := false |}.
Definition two := disk [(str "a.s", old_s); (str "b.s", new_s); (str "c.s", str "old")].
Example C136_filter_case : let os := [OIn (str "a.s"); OFilter; OOs (str "rhel6"); OOut (str "c.s"); OEh] in
  filtering os = true /\ outs_of os = [str "c.s"] /\ makeable ge (str "c.s") /\ ~ In (str "c.s") (ins_of os) /\ ins_of os = [str "a.s"] /\ readable ge two (str "a.s") old_s /\ lists_fit os /\
  exists fs', gmain ge two [str "-ia.s"; str "-f"; str "--os=rhel6"; str "-o"; str "c.s"; str "--dbg-filter-eh-frame"] = (GExit 0, fs') /\
    fs' (str "c.s") = Some (lines ["	.file	""a.c"""; "	.text"; "	.globl	f"; "	.type	f, @function"; "f:"; "	movl	$1, %eax"; "	ret"; "	.size	f, .-f"; "	.ident	""GCC"""]%string).
Proof.
  split; [reflexivity|]. split; [reflexivity|]. split; [split; [discriminate|reflexivity]|]. split; [intros [E|[]]; discriminate|]. split; [reflexivity|].
  split; [split; [discriminate|split; reflexivity]|]. split; [repeat split; cbn; lia|]. eexists. split; [vm_compute; reflexivity|]. vm_compute. reflexivity.
Qed.
Example C136_patch_case : exists fs' t, gmain ge two [str "-i"; str "a.s"; str "--force-gotpcrel"; str "-i"; str "b.s"; str "-o"; str "c.s"] = (GExit 0, fs') /\
  fs' (str "c.s") = Some t /\ contains t (str "f.kpatch:") = true /\ fs' (str "a.s") = Some old_s.
Proof. eexists _, _. split; [vm_compute; reflexivity|]. split; [vm_compute; reflexivity|]. split; vm_compute; reflexivity. Qed.

(** Whatever the command line: only files named as outputs are touched. *)
Theorem C136_frame : forall e fs args x fs', gmain e fs args = (x, fs') -> only (outs_of (fst (scan args))) fs fs'.
Proof. exact gmain_only. Qed.
Print Assumptions C136_frame.
(** Success is said only when every option was understood, there was nothing else on the line, an output was named and
    made, every input was read and none too many, and the output is the result for these inputs.  [c] is [[]] for an
    input that is an output as well. *)
Theorem C136_success : forall e fs args fs', gmain e fs args = (GExit 0, fs') -> e_room e = None ->
  exists os l o cs t, scan args = (os, []) /\ ~ In OBad os /\ outs_of os = l ++ [o] /\ Forall (makeable e) (outs_of os) /\
    Forall2 (fun f c => readable e fs f c \/ (e_read e f = true /\ In f (outs_of os) /\ c = [])) (ins_of os) cs /\ fs' o = Some t /\
    let is := map (fun x => input_of e (fst x) (snd x)) (combine (ins_of os) cs) in
    if filtering os then exists i r, is = i :: r /\ (length r <= 1)%nat /\ dbg_filter (e_arch e) (dopts_of os) (e_buf e) i = Ok t
    else exists i0 i1, is = [i0; i1] /\ GenModel.gensrc (e_arch e) (gopts_of e os) (e_buf e) i0 i1 = Ok t.
Proof.
  intros e fs args fs' G Ro. destruct (gmain_zero _ _ _ _ G) as (os & l & o & is & t & E & NB & Eo & Mk & Hd & Et & R). unfold written in Et. rewrite Ro in Et.
  assert (exists cs, Forall2 (fun f c => readable e fs f c \/ (e_read e f = true /\ In f (outs_of os) /\ c = [])) (ins_of os) cs /\ is = map (fun x => input_of e (fst x) (snd x)) (combine (ins_of os) cs)) as (cs & Hc & ->).
  { clear - Hd. induction Hd as [|f i fl il (c & A & B & C & D) _ (cs & IH1 & IH2)]; [exists []; split; [constructor|reflexivity]|]. exists (c :: cs). split.
    - constructor; [|exact IH1]. destruct D as [D|(D1 & D2)]; [left; split; [exact A|split; assumption]|right; auto].
    - cbn [combine map fst snd]. rewrite <- IH2, C. reflexivity. }
  exists os, l, o, cs, t. repeat (split; [assumption|]). exact R.
Qed.
Print Assumptions C136_success.
(** So it fails for a file that is not there, without an output, with three inputs, with one file to compare, with
    anything that is no option. *)
Theorem C136_refuses : forall e fs os wss, Forall2 says os wss -> e_room e = None ->
  (exists f, In f (ins_of os) /\ fs f = None /\ ~ In f (outs_of os)) \/ outs_of os = [] \/ (2 < length (ins_of os))%nat \/ ins_of os = [] \/
    (filtering os = false /\ length (ins_of os) <> 2%nat) ->
  forall fs', gmain e fs (concat wss) <> (GExit 0, fs').
Proof.
  intros e fs os wss Sy Ro H fs' G. destruct (C136_success _ _ _ _ G Ro) as (os' & l & o & cs & t & E & NB & Eo & Mk & Hd & Et & R). rewrite (scan_all _ _ Sy) in E. assert (os = os') by congruence. subst os'.
  cbv zeta in R. assert (L := forall2_len _ _ _ Hd). assert (Lm : length (map (fun x => input_of e (fst x) (snd x)) (combine (ins_of os) cs)) = length (ins_of os)) by (rewrite map_length, combine_length, <- L; lia).
  assert (Lr : if filtering os then (1 <= length (ins_of os) <= 2)%nat else length (ins_of os) = 2%nat).
  { destruct (filtering os).
    - destruct R as (i & r & Ei & Lr & _). rewrite Ei in Lm. cbn [length] in Lm. lia.
    - destruct R as (i0 & i1 & Ei & _). rewrite Ei in Lm. cbn [length] in Lm. lia. }
  destruct H as [(f & I & N & No)|[H|[H|[H|(H & H')]]]].
  - clear - Hd I N No. induction Hd as [|g c fl cl Hg _ IH]; [contradiction|]. destruct I as [->|I]; [|exact (IH I)]. destruct Hg as [(_ & _ & Hg)|(_ & Hg & _)]; [congruence|contradiction].
  - rewrite H in Eo. destruct l; discriminate.
  - destruct (filtering os); lia.
  - rewrite H in Lr. cbn [length] in Lr. destruct (filtering os); lia.
  - rewrite H in Lr. contradiction.
Qed.
Print Assumptions C136_refuses.
Example C136_refuses_case : fst (gmain ge two [str "-i"; str "a.s"; str "-i"; str "x.s"; str "-o"; str "c.s"]) = GExit 1 /\
  fst (gmain ge two [str "-i"; str "a.s"; str "-o"; str "c.s"]) = GExit 1 /\ fst (gmain ge two [str "-f"; str "-i"; str "a.s"]) = GExit 255.
Proof. split; [|split]; vm_compute; reflexivity. Qed.
(** A word that is no option, wherever it stands, is refused too. *)
Theorem C136_operand : forall e fs os wss v rest wss', Forall2 says os wss -> Forall2 says rest wss' -> hd 0 v <> 45 ->
  forall fs', gmain e fs (concat wss ++ v :: concat wss') <> (GExit 0, fs').
Proof.
  intros e fs os wss v rest wss' S1 S2 Hv fs' G. destruct (gmain_zero _ _ _ _ G) as (os' & l & o & is & t & E & _).
  assert (Q : forall r, scan (concat wss ++ r) = (os ++ fst (scan r), snd (scan r))).
  { clear - S1. induction S1 as [|o ws os wss S _ IH]; intros r; [cbn [concat app]; destruct (scan r); reflexivity|]. cbn [concat]. rewrite <- app_assoc, (scan_says _ _ _ S), IH. reflexivity. }
  rewrite Q in E. assert (W : snd (scan (v :: concat wss')) = v :: snd (scan (concat wss'))).
  { destruct v as [|c [|d v]]; cbn [scan]; [destruct (scan (concat wss')); reflexivity|destruct (scan (concat wss')); reflexivity|]. cbn [hd] in Hv. destruct (Z.eqb_spec c 45); [contradiction|]. cbn [negb]. destruct (scan (concat wss')). reflexivity. }
  rewrite W in E. discriminate.
Qed.
Print Assumptions C136_operand.

(** Where it falls short.  A full disk is not noticed: the output is cut and the status is that of success. *)
Theorem C136_full_disk_refuted : exists e fs fs' t, e_room e <> None /\ dbg_filter (e_arch e) (dopts_of [OFilter]) (e_buf e) (input_of e (str "a.s") old_s) = Ok t /\ readable e fs (str "a.s") old_s /\
  gmain e fs [str "-f"; str "-i"; str "a.s"; str "-o"; str "c.s"] = (GExit 0, fs') /\ fs' (str "c.s") = Some (firstn 20 t) /\ firstn 20 t <> t.
Proof.
  exists {| e_arch := px86; e_buf := 4095; e_real := fun _ => (str "/src/", str "a.c"); e_read := fun _ => true; e_write := fun _ => true;
            e_room := Some 20%nat; e_torn := []; e_conf := None; e_shift := str "12"; e_junk := false |}, two. eexists _, _.
  split; [discriminate|]. split; [vm_compute; reflexivity|]. split; [split; [discriminate|split; reflexivity]|]. split; [vm_compute; reflexivity|]. split; [vm_compute; reflexivity|vm_compute; discriminate].
Qed.
Print Assumptions C136_full_disk_refuted.
(** A run that is refused has already emptied the file it was to write. *)
Theorem C136_refusal_keeps_output_refuted : exists e fs args st fs' o, fs o = Some (str "old") /\ gmain e fs args = (GExit st, fs') /\ st <> 0 /\ fs' o = Some [].
Proof.
  exists ge, two, [str "-o"; str "c.s"; str "-i"; str "missing.s"; str "-f"], 1. eexists _, (str "c.s"). split; [reflexivity|]. split; [vm_compute; reflexivity|]. split; [discriminate|reflexivity].
Qed.
Print Assumptions C136_refusal_keeps_output_refuted.
(** "--output" is not known: the table says "ouput". *)
Theorem C136_output_word : forall e fs v r, gmain e fs ((str "--output=" ++ v) :: r) = (GExit 255, fs) /\ gmain e fs (str "--output" :: v :: r) = (GExit 255, fs).
Proof. intros. split; reflexivity. Qed.
Print Assumptions C136_output_word.
Theorem C136_output_word_refuted : exists e fs fs', gmain e fs [str "-f"; str "--input=a.s"; str "--output=c.s"] = (GExit 255, fs) /\ gmain e fs [str "-f"; str "--input=a.s"; str "-oc.s"] = (GExit 0, fs').
Proof. exists ge, two. eexists. split; vm_compute; reflexivity. Qed.
Print Assumptions C136_output_word_refuted.
(** A system or machine that is not known is taken without a word, as if it had not been given. *)
Theorem C136_unknown_os : forall e fs os1 os2 v, v <> str "rhel5" -> v <> str "rhel6" -> steps e (os1 ++ OOs v :: os2) (gstart fs) = steps e (os1 ++ os2) (gstart fs).
Proof.
  intros e fs os1 os2 v N5 N6. generalize (gstart fs). induction os1 as [|o os1 IH]; intros s.
  - cbn [app steps step]. destruct (list_eqb v (str "rhel5")) eqn:Q5; [apply list_eqb_eq in Q5; contradiction|]. destruct (list_eqb v (str "rhel6")) eqn:Q6; [apply list_eqb_eq in Q6; contradiction|]. destruct s. reflexivity.
  - cbn [app steps]. destruct (step e o s); [apply IH|reflexivity].
Qed.
Print Assumptions C136_unknown_os.
Theorem C136_unknown_os_refuted : exists e fs fs', gmain e fs [str "-f"; str "--os=windows"; str "--arch=z80"; str "-ia.s"; str "-oc.s"] = (GExit 0, fs').
Proof. exists ge, two. eexists. vm_compute. reflexivity. Qed.
Print Assumptions C136_unknown_os_refuted.

(** ** C137: the steps of the patched stage leave the source of the patch. *)
(** [h]: what the wrapper did and what it was answered.  All answers are good, no program was ended by a signal. *)
Theorem C137_patched_stage : forall e k dos pos base found h fs fs', e_room e = None -> wants (k_dbg k) dos -> filtering dos = true -> wants (k_patch k) pos -> filtering pos = false ->
  map fst h = patch_steps k base found -> Forall fine h -> Forall whole h -> found_said base found h -> did e k h fs fs' -> patch_made e dos pos base found fs fs'.
Proof. exact patch_did. Qed.
Print Assumptions C137_patched_stage.
(** A whole compilation: between making the assembler file and assembling. *)
Theorem C137_compile w rp ev addr prog ws k f x o d b base r h e dos pos fs fs' :
  init_conf prog (spell_all ws) ev addr = Val k -> k_stage k = Patched -> Forall wd_ok ws -> words_ok k ws -> roles_kept k ws ->
  ins ws = [f] -> (length (langs ws) <= 1)%nat -> is_kind k ws f x -> out_is ws f (suffix_for x) o -> o <> str "/dev/null" ->
  CcSpec.in_dir o d b -> asm_base k rp d b = Some base -> (length o < path_max)%nat -> (length (asm_file k base) < path_max)%nat ->
  kpcc w rp ev addr prog (spell_all ws) = (r, h) -> succeeds r -> Forall whole h ->
  e_room e = None -> wants (k_dbg k) dos -> filtering dos = true -> wants (k_patch k) pos -> filtering pos = false -> did e k (rev h) fs fs' ->
  exists found before during last ra fs1 fs2, rev h = before ++ during ++ [(last, ra)] /\
    map fst before = dir_steps k base ++ [to_asm k ws x f (base ++ str ".patched.s")] /\ did e k before fs fs1 /\
    did e k during fs1 fs2 /\ patch_made e dos pos base found fs1 fs2 /\
    last = to_output k ws x (base ++ str ".s") o /\ does e k (last, ra) fs2 fs'.
Proof.
  intros EK ST K W RK EI LL KD OI ND ID AB LO LA ER SU WH Ro Wd Fd Wp Fp Di.
  destruct (C100_compile w rp ev addr prog ws k f x o d b base r h EK ltac:(congruence) K W RK EI LL KD OI ND ID AB LO LA ER) as (_ & FI & TR).
  destruct (TR SU) as (found & T & FS). specialize (FS ST). apply FI in SU.
  destruct (init_conf_stage _ _ _ _ _ EK) as (_ & _ & SN & _). specialize (SN ST).
  assert (EA : asm_file k base = base ++ str ".patched.s") by (unfold asm_file; rewrite SN; reflexivity). unfold stage_steps, ready in T. rewrite ST, EA in T.
  unfold trace in T. rewrite app_assoc in T. apply map_split in T. destruct T as (before & rest & E1 & Eb & Er). apply map_split in Er. destruct Er as (during & lst & -> & Ed & El).
  destruct lst as [|(last, ra) [|? ?]]; try discriminate. cbn [map fst] in El. assert (last = to_output k ws x (base ++ str ".s") o) by congruence. clear El.
  rewrite E1 in Di. apply did_app in Di. destruct Di as (fs1 & D1 & Di). apply did_app in Di. destruct Di as (fs2 & D2 & D3). inversion D3 as [|? ? ? s3 ? D4 D5]; subst. inversion D5; subst.
  assert (FR : Forall fine (rev h)) by (apply Forall_rev; exact SU). assert (WR : Forall whole (rev h)) by (apply Forall_rev; exact WH). rewrite E1 in FR, WR.
  exists found, before, during, (to_output k ws x (base ++ str ".s") o), ra, fs1, fs2. repeat (split; [first [assumption|reflexivity]|]). split; [|split; [reflexivity|exact D4]].
  apply Forall_app in FR. destruct FR as (_ & FR). apply Forall_app in FR. destruct FR as (FR & _). apply Forall_app in WR. destruct WR as (_ & WR). apply Forall_app in WR. destruct WR as (WR & _).
  apply (patch_did e k dos pos base found during); try assumption.
  unfold found_said in FS |- *. apply in_rev in FS. rewrite E1 in FS. apply in_app_or in FS. destruct FS as [FS|FS].
  - exfalso. apply (in_map fst) in FS. rewrite Eb in FS. cbn [fst] in FS. apply in_app_or in FS. destruct FS as [FS|[FS|[]]]; [|destruct x; discriminate].
    unfold dir_steps in FS. destruct (k_asmdir k); [|contradiction]. apply in_map_iff in FS. destruct FS as (? & ? & _). discriminate.
  - apply in_app_or in FS. destruct FS as [FS|[FS|[]]]; [exact FS|]. destruct x; discriminate.
Qed.
Print Assumptions C137_compile.
(** What the wrapper asks for when it is not told otherwise: frames and exception tables go too, and functions are reached
    through the table of the patch. *)
Theorem C137_defaults : forall prog args ev addr k, init_conf prog args ev addr = Val k -> k_stage k = Patched -> ev (str "KPCC_DBGFILTER_ARGS") = None -> ev (str "KPCC_PATCH_ARGS") = None ->
  exists dos pos, wants (k_dbg k) dos /\ filtering dos = true /\ wants (k_patch k) pos /\ filtering pos = false /\
    dopts_of dos = {| do_eh := true; do_except := true; do_cfi := false; do_newlines := false |} /\
    forall e, gopts_of e pos = {| go_rhel5 := false; go_32 := false; go_ignore := []; go_unlink := []; go_adapt := []; go_conf := e_conf e; go_got := true; go_global := false; go_shift := e_shift e; go_junk := e_junk e |}.
Proof.
  intros prog args ev addr k EK ST ED EP. exists [OFilter; OEh; OExcept; OOs (str "rhel6")], [OGot; OOs (str "rhel6")].
  assert (k_dbg k = [str "--dbg-filter"; str "--dbg-filter-eh-frame"; str "--dbg-filter-gcc-except-table"; str "--os=rhel6"] /\ k_patch k = [str "--force-gotpcrel"; str "--os=rhel6"]) as (-> & ->).
  { unfold init_conf in EK. destruct (ev (str "KPATCH_PATH")); [|discriminate]. destruct (ev (str "KPATCH_STAGE")); [|discriminate]. destruct (stage_of t0); [|discriminate]. cbv zeta in EK.
    assert (E1 : forall d, env_list ev (str "KPCC_DBGFILTER_ARGS") d = Val d) by (intros; unfold env_list; rewrite ED; reflexivity).
    assert (E2 : forall d, env_list ev (str "KPCC_PATCH_ARGS") d = Val d) by (intros; unfold env_list; rewrite EP; reflexivity).
    rewrite E1, E2 in EK. destruct (if looks_configure (prog :: args) then Configure else s); try (destruct (env_remove ev addr); [|discriminate|discriminate]; destruct (env_list ev (str "KPCC_APPEND_ARGS") []); [|discriminate|discriminate];
      cbn [obind] in EK; assert (Q := f_equal (fun y => match y with Val c => (k_dbg c, k_patch c) | _ => ([], []) end) EK); cbn [k_dbg k_patch] in Q; split; congruence).
    exfalso. assert (Q := f_equal (fun y => match y with Val c => k_stage c | _ => Original end) EK). cbn [k_stage] in Q. congruence. }
  split; [|split; [reflexivity|split; [|split; [reflexivity|split; [reflexivity|intros; reflexivity]]]]].
  - exists [[str "--dbg-filter"]; [str "--dbg-filter-eh-frame"]; [str "--dbg-filter-gcc-except-table"]; [str "--os=rhel6"]]. split; [|split; [reflexivity|split; reflexivity]].
    apply Forall2_cons; [right; reflexivity|]. apply Forall2_cons; [reflexivity|]. apply Forall2_cons; [reflexivity|]. apply Forall2_cons; [right; right; reflexivity|]. apply Forall2_nil.
  - exists [[str "--force-gotpcrel"]; [str "--os=rhel6"]]. split; [|split; [reflexivity|split; reflexivity]]. apply Forall2_cons; [reflexivity|]. apply Forall2_cons; [right; right; reflexivity|]. apply Forall2_nil.
Qed.
Print Assumptions C137_defaults.
(** The wrapper in the patched stage, and the files: both assembler files are there. *)
Definition k1 : conf := match init_conf (str "gcc") [str "-c"; str "a.c"] (env_of (env1 "patched")) 4096 with
  | Val k => k | _ => {| k_stage := Configure; k_stagename := []; k_real := []; k_path := []; k_remove := []; k_append := []; k_dbg := []; k_patch := []; k_asm := false; k_prefix := []; k_asmdir := None |} end.
Definition base1 : text := str "./.kpatch_a.o".
Definition made := disk [(base1 ++ str ".original.s", old_s); (base1 ++ str ".patched.s", new_s)].
Lemma run_gensrc_did e k args fs l fs2 : fst (gmain e fs args) = GExit 0 -> did e k l (snd (gmain e fs args)) fs2 -> did e k ((CcSpec.gensrc k args, 0) :: l) fs fs2.
Proof. intros E D. eapply DCons; [|exact D]. apply (DGensrc e k args 0). rewrite <- E. destruct (gmain e fs args). reflexivity. Qed.
Lemma rename_did e k a b fs t l fs2 : fs a = Some t -> did e k l (fput (fput fs a None) b (Some t)) fs2 -> did e k ((Rename a b, 0) :: l) fs fs2.
Proof. intros E D. eapply DCons; [|exact D]. constructor. exact E. Qed.
Lemma run_did e k p a r fs l fs2 : p <> gensrc_path k -> did e k l fs fs2 -> did e k ((Run p a, r) :: l) fs fs2.
Proof. intros E D. eapply DCons; [|exact D]. apply DRun. exact E. Qed.
Lemma fine0 l : forallb (fun x => match x with Exec _ _ => false | _ => true end) l = true -> Forall fine (map (fun x => (x, 0)) l) /\ Forall whole (map (fun x => (x, 0)) l).
Proof.
  intros H. rewrite forallb_forall in H. rewrite !Forall_map. split; apply Forall_forall; intros x I; specialize (H x I); destruct x; cbn [fine whole]; try discriminate; try reflexivity; try (left; reflexivity); try exact Logic.I.
  split; [lia|reflexivity].
Qed.
Example C137_case : let h := map (fun x => (x, 0)) (patch_steps k1 base1 true) in
  init_conf (str "gcc") [str "-c"; str "a.c"] (env_of (env1 "patched")) 4096 = Val k1 /\ k_stage k1 = Patched /\ Forall fine h /\ Forall whole h /\ found_said base1 true h /\
  exists fs' t, did ge k1 h made fs' /\ fs' (base1 ++ str ".s") = Some t /\ contains t (str "f.kpatch:") = true /\ contains t (str ".loc") = false.
Proof.
  cbv zeta. split; [reflexivity|]. split; [reflexivity|]. split; [apply fine0; vm_compute; reflexivity|]. split; [apply fine0; vm_compute; reflexivity|]. split; [left; reflexivity|].
  eexists _, _. split; [|split; [|split]].
  - cbn [patch_steps map app]. eapply DCons; [exact (DAccess ge k1 _ made)|].
    change (filter_steps k1 (base1 ++ str ".original.s")) with [CcSpec.gensrc k1 (k_dbg k1 ++ [str "-i"; base1 ++ str ".original.s"; str "-o"; (base1 ++ str ".original.s") ++ str ".tmp"]); Rename ((base1 ++ str ".original.s") ++ str ".tmp") (base1 ++ str ".original.s")].
    change (filter_steps k1 (base1 ++ str ".patched.s")) with [CcSpec.gensrc k1 (k_dbg k1 ++ [str "-i"; base1 ++ str ".patched.s"; str "-o"; (base1 ++ str ".patched.s") ++ str ".tmp"]); Rename ((base1 ++ str ".patched.s") ++ str ".tmp") (base1 ++ str ".patched.s")].
    cbn [map app]. apply run_gensrc_did; [vm_compute; reflexivity|]. eapply rename_did; [vm_compute; reflexivity|].
    apply run_gensrc_did; [vm_compute; reflexivity|]. eapply rename_did; [vm_compute; reflexivity|].
    apply run_gensrc_did; [vm_compute; reflexivity|]. eapply rename_did; [vm_compute; reflexivity|]. apply DNil.
  - vm_compute. reflexivity.
  - vm_compute. reflexivity.
  - vm_compute. reflexivity.
Qed.

(** The wrapper looks at the exit status alone.  When a signal ends kpatch_gensrc, what was written until then is taken
    for the source of the patch, and the compilation succeeds. *)
Definition killed_once : world := fun _ x => match x with Run _ (_ :: a :: _) => if list_eqb a (str "--force-gotpcrel") then 9 else 0 | _ => 0 end.
Theorem C137_killed_refuted : exists w e k r h fs fs', e_room e = None /\
  init_conf (str "gcc") [str "-c"; str "a.c"] (env_of (env1 "patched")) 4096 = Val k /\ kpcc w Some (env_of (env1 "patched")) 4096 (str "gcc") [str "-c"; str "a.c"] = (r, h) /\ succeeds r /\
  did e k (rev h) fs fs' /\ fs' (base1 ++ str ".s") = Some (str "	.te") /\
  In (Run (k_real k) (command k [WAct true; WIn (str "a.c")] (str "-c") (Some (base1 ++ str ".s")) true (str "a.o"))) (trace h).
Proof.
  exists killed_once, ge, k1. eexists _, _, made, _. split; [reflexivity|]. split; [reflexivity|]. split; [vm_compute; reflexivity|]. split; [reflexivity|]. split; [|split].
  - cbn [rev app]. apply run_did; [vm_compute; discriminate|]. eapply DCons; [exact (DAccess ge k1 (base1 ++ str ".original.s") made)|].
    eapply (run_gensrc_did ge k1 (k_dbg k1 ++ [str "-i"; base1 ++ str ".original.s"; str "-o"; (base1 ++ str ".original.s") ++ str ".tmp"])); [vm_compute; reflexivity|]. eapply rename_did; [vm_compute; reflexivity|].
    eapply (run_gensrc_did ge k1 (k_dbg k1 ++ [str "-i"; base1 ++ str ".patched.s"; str "-o"; (base1 ++ str ".patched.s") ++ str ".tmp"])); [vm_compute; reflexivity|]. eapply rename_did; [vm_compute; reflexivity|].
    eapply DCons; [eapply (DKilled ge k1 (k_patch k1 ++ [str "-i"; base1 ++ str ".original.s"; str "-i"; base1 ++ str ".patched.s"; str "-o"; base1 ++ str ".s.tmp"]) 9 _ (fput _ (base1 ++ str ".s.tmp") (Some (str "	.te")))); [intros n N; apply fput_other; intros ->; apply N; left; reflexivity|lia]|].
    eapply rename_did; [apply fput_same|]. apply run_did; [vm_compute; discriminate|]. apply DNil.
  - apply fput_same.
  - vm_compute. tauto.
Qed.
Print Assumptions C137_killed_refuted.
