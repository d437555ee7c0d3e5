(** Properties of libcare-patch-make. *)
From Coq Require Import String.
From Verif Require Import Base StorageModel TextModel LpModel LpSpec LpProofs.
Open Scope list_scope.

(** * C129: the machine is left as it was *)
Theorem C129_sources_partial : forall w t cc libcare proot gensrc clean upd id given ps execs (src : text -> bool) m st m',
  (* the source tree: no backups in it, nor anywhere; make and the tools write elsewhere *)
  (forall p, lookup p (files m) <> None -> base_of p = None) ->
  (forall p, base_of p <> None -> src p = true) ->
  (forall s now f p, src p = true -> lookup p (make_ w s now f) = lookup p f /\ lookup p (install_ w s now f) = lookup p f /\ lookup p (clean_ w f) = lookup p f) ->
  (forall o p, In (o, p) execs -> src (p ++ str ".stripped") = false /\ src (p ++ str ".kpatch") = false) ->
  (forall b, src (proot ++ str "/" ++ b ++ str ".kpatch") = false) ->
  base_of cc = None ->
  (* the patches: files that exist, with ordinary names, each changed by one patch *)
  (forall p, In p (map fst (concat ps)) -> p <> [] /\ src p = true /\ base_of p = None /\ plain p = true /\ p <> cc /\ lookup p (files m) <> None) ->
  NoDup (map fst (concat ps)) ->
  main w t cc libcare proot gensrc clean upd id given ps execs m = (st, m') ->
  forall p, src p = true -> p <> cc -> lookup p (files m') = lookup p (files m).
Proof.
  intros w t cc libcare proot gensrc clean upd id given ps execs src m st m' H1 H2 H3 H4 H5 H6 H7 H8 M.
  exact (main_sources w t cc libcare proot ps execs src (files m) H1 H2 H7 H8 H3 H6 H4 H5 gensrc clean upd id given m st m' eq_refl M).
Qed.
Print Assumptions C129_sources_partial.

(** After a run that succeeded the name of the compiler, if it was a link, leads where it led. *)
Theorem C129_compiler_partial : forall w t cc libcare proot gensrc clean upd id given ps execs (src : text -> bool) m m' target real,
  (forall p, lookup p (files m) <> None -> base_of p = None) ->
  (forall p, base_of p <> None -> src p = true) ->
  (forall s now f p, src p = true -> lookup p (make_ w s now f) = lookup p f /\ lookup p (install_ w s now f) = lookup p f /\ lookup p (clean_ w f) = lookup p f) ->
  (forall o p, In (o, p) execs -> src (p ++ str ".stripped") = false /\ src (p ++ str ".kpatch") = false) ->
  (forall b, src (proot ++ str "/" ++ b ++ str ".kpatch") = false) ->
  base_of cc = None ->
  (forall p, In p (map fst (concat ps)) -> p <> [] /\ src p = true /\ base_of p = None /\ plain p = true /\ p <> cc /\ lookup p (files m) <> None) ->
  NoDup (map fst (concat ps)) ->
  lookup cc (files m) = Some (Link target) -> realpath 40 cc (files m) = Some real -> src real = true ->
  main w t cc libcare proot gensrc clean upd id given ps execs m = (0, m') ->
  realpath 40 cc (files m') = Some real.
Proof.
  intros w t cc libcare proot gensrc clean upd id given ps execs src m m' target real H1 H2 H3 H4 H5 H6 H7 H8 L R S M.
  destruct (main_cc w t cc libcare proot ps execs src (files m) H1 H2 H7 H8 H3 H6 H4 H5 gensrc clean upd id given m m' eq_refl M) as (r & Er & Lc). rewrite R in Er. injection Er as <-.
  assert (F : exists c n, lookup real (files m) = Some (File c n)).
  { clear - R. revert R. generalize 40%nat as k, cc as q. induction k as [|k IH]; intros q R; [discriminate|]. cbn [realpath] in R. destruct (lookup q (files m)) as [[c n|q']|] eqn:E; [|apply (IH q' R)|discriminate].
    injection R as <-. exists c, n. exact E. }
  destruct F as (c & n & F). assert (N : real <> cc) by (intros ->; congruence).
  pose proof (main_sources w t cc libcare proot ps execs src (files m) H1 H2 H7 H8 H3 H6 H4 H5 gensrc clean upd id given m 0 m' eq_refl M real S N) as X. rewrite F in X.
  change (realpath 40 cc (files m')) with (match lookup cc (files m') with Some (File _ _) => Some cc | Some (Link q) => realpath 39 q (files m') | None => None end). rewrite Lc.
  change (realpath 39 real (files m')) with (match lookup real (files m') with Some (File _ _) => Some real | Some (Link q) => realpath 38 q (files m') | None => None end). rewrite X. reflexivity.
Qed.
Print Assumptions C129_compiler_partial.

(** A machine for the examples: a program of one source file, tools that do their work. *)
Definition CC := str "/usr/bin/cc".
Definition GCC := str "/usr/bin/gcc".
Definition LCC := str "/usr/bin/libcare-cc".
Definition ROOT := str "/work/patchroot".
Definition C := str "/work/a.c".
Definition O := str "/work/a.o".
Definition INST (s : stage) : text := match s with Original => str "/work/lpmake/a" | Patched => str "/work/.lpmaketmp/patched/a" end.
Definition COMPILE (s : stage) (x : text) : text := (match s with Original => 111 | Patched => 112 end) :: x.
Definition quiet_world := rules C O INST COMPILE (fun _ => false).
Definition good_tools := Tools (fun o => o) (fun p => match p with 112 :: _ => true | _ => false end)
  (fun p => Some p) (fun o s => Some (o ++ s)) (fun s => Some s) (fun o s => Some s) (fun b i s => Some (b ++ i ++ s)).
Definition start := Mach [(CC, Link GCC); (GCC, File (str "compiler") 0); (C, File (str "x") 5)] 10 [].
Definition EXECS := [(INST Original, INST Patched)].
Definition FIX : edits := [(C, fun _ => Some (str "y"))].
Definition ID := str "0001".
Definition go w t ps m := main w t CC LCC ROOT true false false ID None ps EXECS m.
(** Which names the build does not write: all but the object, the two directories and the root. *)
Definition SRC (p : text) : bool := negb (teq p CC || teq p O || prefix_of (str "/work/lpmake/") p || prefix_of (str "/work/.lpmaketmp/") p || prefix_of (str "/work/patchroot/") p)
  || match base_of p with Some _ => true | None => false end.
Lemma base_kpatch p : base_of (p ++ str ".kpatch") = None.
Proof. unfold base_of. rewrite rev_app_distr. rewrite teq_ne; [reflexivity|]. cbn. discriminate. Qed.
Lemma quiet_src : forall s now f p, SRC p = true -> lookup p (make_ quiet_world s now f) = lookup p f /\ lookup p (install_ quiet_world s now f) = lookup p f /\ lookup p (clean_ quiet_world f) = lookup p f.
Proof.
  intros s now f p H. assert (N : ~ In p [O; INST Original; INST Patched]) by (intros I; cbn [In] in I; destruct I as [<-|[<-|[<-|[]]]]; vm_compute in H; discriminate).
  cbn [make_ install_ clean_ quiet_world rules]. split; [|split].
  - unfold rule_make. assert (N' : O <> p) by (intros E; apply N; left; exact E). destruct (lookup C f) as [[x tm|]|]; [|reflexivity|reflexivity].
    destruct (lookup O f) as [[x' tm'|]|]; [destruct (_ <? _); [|reflexivity]| |]; rewrite lookup_cons, (teq_ne _ _ N'); reflexivity.
  - unfold rule_install. assert (N' : INST s <> p) by (intros E; apply N; destruct s; cbn [In]; auto). destruct (lookup O f) as [[x tm|]|]; [|reflexivity|reflexivity]. rewrite lookup_cons, (teq_ne _ _ N'). reflexivity.
  - rewrite lookup_clean. match goal with |- context [in_dec ?a ?b ?c] => destruct (in_dec a b c) end; [contradiction|reflexivity].
Qed.
(** The hypotheses of the two theorems hold of this machine; the run succeeds, makes the patch, and ends with the old source. *)
Example C129_case :
  (forall p, lookup p (files start) <> None -> base_of p = None) /\ (forall p, base_of p <> None -> SRC p = true)
  /\ (forall o p, In (o, p) EXECS -> SRC (p ++ str ".stripped") = false /\ SRC (p ++ str ".kpatch") = false)
  /\ (forall b, SRC (ROOT ++ str "/" ++ b ++ str ".kpatch") = false) /\ base_of CC = None
  /\ (forall p, In p (map fst (concat [FIX])) -> p <> [] /\ SRC p = true /\ base_of p = None /\ plain p = true /\ p <> CC /\ lookup p (files start) <> None)
  /\ NoDup (map fst (concat [FIX])) /\ lookup CC (files start) = Some (Link GCC) /\ realpath 40 CC (files start) = Some GCC /\ SRC GCC = true
  /\ (exists m', go quiet_world good_tools [FIX] start = (0, m')
      /\ trace m' = [EMake Original; EInstall Original; EPatch 0; EMake Patched; EInstall Patched; EKpatch (ROOT ++ str "/" ++ COMPILE Original (str "x") ++ str ".kpatch")]
      /\ lookup C (files m') = Some (File (str "x") 5) /\ realpath 40 CC (files m') = Some GCC).
Proof.
  split. { intros p H. apply in_names in H. cbn [files start map fst In] in H. destruct H as [<-|[<-|[<-|[]]]]; reflexivity. }
  split. { intros p H. unfold SRC. destruct (base_of p); [apply orb_true_r|congruence]. }
  split. { intros o p [E|[]]. injection E as <- <-. split; reflexivity. }
  split. { intros b. unfold SRC. rewrite !app_assoc, base_kpatch, orb_false_r. apply negb_false_iff. rewrite <- !app_assoc. apply orb_true_iff. right. reflexivity. }
  split; [reflexivity|]. split. { intros p [<-|[]]. cbn [fst FIX]. repeat split; try reflexivity; discriminate. }
  split; [repeat constructor; intros []|]. split; [vm_compute; reflexivity|]. split; [vm_compute; reflexivity|]. split; [vm_compute; reflexivity|].
  eexists. split; [vm_compute; reflexivity|]. split; [vm_compute; reflexivity|]. split; vm_compute; reflexivity.
Qed.

(** Two patches of one file: the second backup is written over the first, so that the file is left with the first patch in it. *)
Theorem C129_twice_refuted : exists ps m m', (forall p, In p (map fst (concat ps)) -> lookup p (files m) <> None /\ plain p = true) /\ (forall p, lookup p (files m) <> None -> base_of p = None)
  /\ go quiet_world good_tools ps m = (0, m') /\ lookup C (files m) = Some (File (str "x") 5) /\ content_of (lookup C (files m')) = Some (str "y").
Proof.
  exists [[(C, fun _ => Some (str "y"))]; [(C, fun _ => Some (str "z"))]], start. eexists.
  split. { intros p [<-|[<-|[]]]; split; [discriminate|reflexivity|discriminate|reflexivity]. }
  split. { intros p H. apply in_names in H. cbn [files start map fst In] in H. destruct H as [<-|[<-|[<-|[]]]]; reflexivity. }
  split; [vm_compute; reflexivity|]. split; vm_compute; reflexivity.
Qed.
Print Assumptions C129_twice_refuted.
(** A patch that adds a file: an empty file is left. *)
Theorem C129_added_refuted : exists ps p m m', (forall p, lookup p (files m) <> None -> base_of p = None)
  /\ go quiet_world good_tools ps m = (0, m') /\ lookup p (files m) = None /\ content_of (lookup p (files m')) = Some [].
Proof.
  exists [FIX ++ [(str "/work/new.h", fun _ => Some (str "n"))]], (str "/work/new.h"), start. eexists.
  split. { intros p H. apply in_names in H. cbn [files start map fst In] in H. destruct H as [<-|[<-|[<-|[]]]]; reflexivity. }
  split; [vm_compute; reflexivity|]. split; vm_compute; reflexivity.
Qed.
Print Assumptions C129_added_refuted.
(** A name with a space in it: the file is left patched, with its backup beside it. *)
Theorem C129_name_refuted : exists p e m m', lookup p (files m) <> None /\ (forall p, lookup p (files m) <> None -> base_of p = None)
  /\ go quiet_world good_tools [[(p, e)]] m = (0, m') /\ lookup p (files m') <> lookup p (files m) /\ (exists o, base_of o = Some p /\ lookup o (files m') = lookup p (files m)).
Proof.
  exists (str "/work/a b.c"), (fun _ => Some (str "y")), (Mach ((str "/work/a b.c", File (str "x") 5) :: files start) 10 []). eexists.
  split; [discriminate|]. split. { intros p H. apply in_names in H. cbn [files start map fst In] in H. destruct H as [<-|[<-|[<-|[<-|[]]]]]; reflexivity. }
  split; [vm_compute; reflexivity|]. split; [vm_compute; discriminate|]. exists (str "/work/a b.c" ++ BACKUP). split; vm_compute; reflexivity.
Qed.
Print Assumptions C129_name_refuted.
(** When a tool fails the script ends with status 1 and the system's compiler stays replaced. *)
Theorem C129_failure_refuted : exists t m m', lookup CC (files m) = Some (Link GCC) /\ go quiet_world t [FIX] m = (1, m') /\ lookup CC (files m') = Some (Link LCC).
Proof.
  exists (Tools (build_id good_tools) (has_kpatch good_tools) (fun _ => None) (fixup_ good_tools) (unneeded_ good_tools) (undo_ good_tools) (make_kpatch good_tools)), start.
  eexists. split; [reflexivity|]. split; vm_compute; reflexivity.
Qed.
Print Assumptions C129_failure_refuted.
(** If the name of the compiler is the compiler itself, it is deleted; the name becomes a link to itself. *)
Theorem C129_compiler_refuted : exists m m', realpath 40 CC (files m) = Some CC /\ go quiet_world good_tools [FIX] m = (0, m') /\ lookup CC (files m') = Some (Link CC) /\ realpath 40 CC (files m') = None
  /\ (forall p, lookup p (files m') <> Some (File (str "compiler") 0)).
Proof.
  exists (Mach [(CC, File (str "compiler") 0); (C, File (str "x") 5)] 10 []). eexists. split; [reflexivity|]. split; [vm_compute; reflexivity|]. split; [vm_compute; reflexivity|]. split; [vm_compute; reflexivity|].
  intros p H. cbn [files] in H. repeat (cbn [lookup] in H; match type of H with (if teq ?a p then _ else _) = _ => destruct (teq a p); [discriminate|] | None = _ => discriminate end).
Qed.
Print Assumptions C129_compiler_refuted.
(** A signal does not end the script: the patch is made, from a program built with libcare-cc and one that was not. *)
Theorem C129_signal_refuted : exists w m m' tr, (exists c, signal_ w c = true) /\ go w good_tools [FIX] m = (0, m') /\ In (EKpatch tr) (trace m')
  /\ realpath 40 CC (files (run w CC GCC (EMake Original) (make_ w Original) (replace_cc CC LCC m))) = Some GCC.
Proof.
  exists (rules C O INST COMPILE (fun c => c =? 11)), start. eexists. exists (ROOT ++ str "/" ++ COMPILE Original (str "x") ++ str ".kpatch"). split; [exists 11; reflexivity|]. split; [vm_compute; reflexivity|]. split; [cbn [trace In]; right; right; right; right; right; left; reflexivity|vm_compute; reflexivity].
Qed.
Print Assumptions C129_signal_refuted.

(** * C130: the patches made *)
(** Without --buildid, for programs with build ids of their own: for each program that changed there is the patch made of its two builds, in the file of its build id; no other file of the root changes. *)
Theorem C130_made : forall t proot id now xs f tr f' mk tr',
  apart proot xs -> NoDup xs ->
  (forall o p o' p' oc oc', In (o, p) xs -> In (o', p') xs -> content_of (lookup o f) = Some oc -> content_of (lookup o' f) = Some oc' -> build_id t oc = build_id t oc' -> build_id t oc <> [] -> (o, p) = (o', p')) ->
  build_kpatches t proot id None now xs f tr = (Next f' mk, tr') ->
  (forall o p oc pc k, In (o, p) xs -> content_of (lookup o f) = Some oc -> content_of (lookup p f) = Some pc -> build_id t oc <> [] -> chain t id (build_id t oc) oc pc k ->
     content_of (lookup (proot ++ str "/" ++ build_id t oc ++ str ".kpatch") f') = Some k /\ In (EKpatch (proot ++ str "/" ++ build_id t oc ++ str ".kpatch")) tr')
  /\ (forall b, lookup (proot ++ str "/" ++ b ++ str ".kpatch") f' = lookup (proot ++ str "/" ++ b ++ str ".kpatch") f \/
        exists o p oc pc k, In (o, p) xs /\ content_of (lookup o f) = Some oc /\ content_of (lookup p f) = Some pc /\ b = build_id t oc /\ b <> [] /\ chain_weak t id b oc pc k
          /\ content_of (lookup (proot ++ str "/" ++ b ++ str ".kpatch") f') = Some k).
Proof.
  intros t proot id now xs f tr f' mk tr' A ND U H. destruct (loop_made t proot id now xs f tr f' mk tr' A ND U H) as (M & R & _). unfold kpatch_name in *. split.
  - intros o p oc pc k I Eo Ep Nb C. destruct (M o p oc pc k I Eo Ep Nb C) as (L & T). rewrite L. split; [reflexivity|exact T].
  - intros b. destruct (R b) as [E|(o & p & oc & pc & k & I & Eo & Ep & Eb & Nb & C & L)]; [left; exact E|]. right. exists o, p, oc, pc, k. rewrite L. repeat split; try assumption; apply C.
Qed.
Print Assumptions C130_made.
Definition two := [(INST Original, INST Patched); (str "/work/lpmake/b", str "/work/.lpmaketmp/patched/b")].
Definition two_files : fs := [(INST Original, File (str "oa") 1); (INST Patched, File (str "pa") 1); (str "/work/lpmake/b", File (str "ob") 1); (str "/work/.lpmaketmp/patched/b", File (str "pb") 1)].
Example C130_case : apart ROOT two /\ NoDup two
  /\ (forall o p o' p' oc oc', In (o, p) two -> In (o', p') two -> content_of (lookup o two_files) = Some oc -> content_of (lookup o' two_files) = Some oc' -> build_id good_tools oc = build_id good_tools oc' -> build_id good_tools oc <> [] -> (o, p) = (o', p'))
  /\ (exists f' mk tr', build_kpatches good_tools ROOT ID None 7 two two_files [] = (Next f' mk, tr') /\ tr' = [EKpatch (ROOT ++ str "/oa.kpatch"); EKpatch (ROOT ++ str "/ob.kpatch")])
  /\ (exists k, chain good_tools ID (str "oa") (str "oa") (str "pa") k).
Proof.
  split.
  { intros o p o' p' I J. split.
    - intros q Q. assert (X : q = INST Original \/ q = INST Patched \/ q = str "/work/lpmake/b" \/ q = str "/work/.lpmaketmp/patched/b") by (destruct I as [I|[I|[]]]; injection I as <- <-; tauto).
      assert (Y : p' = INST Patched \/ p' = str "/work/.lpmaketmp/patched/b") by (destruct J as [J|[J|[]]]; injection J as <- <-; tauto).
      split; [|split].
      + destruct X as [->|[->|[->| ->]]], Y as [->| ->]; discriminate.
      + destruct X as [->|[->|[->| ->]]], Y as [->| ->]; discriminate.
      + intros b E. unfold kpatch_name in E. destruct X as [->|[->|[->| ->]]]; cbn in E; discriminate.
    - intros b. assert (Y : p = INST Patched \/ p = str "/work/.lpmaketmp/patched/b") by (destruct I as [I|[I|[]]]; injection I as <- <-; tauto).
      unfold kpatch_name. destruct Y as [->| ->]; split; cbn; discriminate. }
  split. { constructor; [intros [E|[]]; discriminate|]. constructor; [intros []|constructor]. }
  split. { intros o p o' p' oc oc' [I|[I|[]]] [J|[J|[]]]; injection I as <- <-; injection J as <- <-; intros E1 E2 E3 _; try reflexivity; vm_compute in E1, E2; injection E1 as <-; injection E2 as <-; discriminate. }
  split. { do 3 eexists. split; vm_compute; reflexivity. }
  eexists. split; [reflexivity|]. do 4 eexists. repeat split; vm_compute; reflexivity.
Qed.

(** When --undo-link fails, the patch is made all the same, of an object whose addresses are the linked ones. *)
Theorem C130_undo_refuted : exists t m m' bid, (forall o s, undo_ t o s = None) /\ go quiet_world t [FIX] m = (0, m') /\ In (EKpatch (ROOT ++ str "/" ++ bid ++ str ".kpatch")) (trace m')
  /\ lookup (ROOT ++ str "/" ++ bid ++ str ".kpatch") (files m') <> None.
Proof.
  exists (Tools (build_id good_tools) (has_kpatch good_tools) (strip_ good_tools) (fixup_ good_tools) (unneeded_ good_tools) (fun _ _ => None) (make_kpatch good_tools)), start.
  eexists. exists (COMPILE Original (str "x")). split; [reflexivity|]. split; [vm_compute; reflexivity|]. split; [cbn [trace In]; right; right; right; right; right; left; reflexivity|vm_compute; discriminate].
Qed.
Print Assumptions C130_undo_refuted.
(** With --buildid and two programs that changed, two patches are announced and one is left. *)
Theorem C130_given_refuted : exists t b f f' mk k, 
  build_kpatches t ROOT ID (Some b) 7 two f [] = (Next f' mk, [EKpatch k; EKpatch k])
  /\ (exists k1 k2, k1 <> k2 /\ (exists o p, content_of (lookup (fst (List.nth 0 two ([], []))) f) = Some o /\ content_of (lookup (snd (List.nth 0 two ([], []))) f) = Some p /\ chain t ID b o p k1)
      /\ (exists o p, content_of (lookup (fst (List.nth 1 two ([], []))) f) = Some o /\ content_of (lookup (snd (List.nth 1 two ([], []))) f) = Some p /\ chain t ID b o p k2)
      /\ content_of (lookup k f') = Some k2).
Proof.
  exists good_tools, (str "id"), two_files. do 3 eexists. split; [vm_compute; reflexivity|].
  exists (str "id0001oapa"), (str "id0001obpb"). split; [discriminate|]. split; [|split].
  - exists (str "oa"), (str "pa"). split; [reflexivity|]. split; [reflexivity|]. split; [reflexivity|]. do 4 eexists. repeat split; vm_compute; reflexivity.
  - exists (str "ob"), (str "pb"). split; [reflexivity|]. split; [reflexivity|]. split; [reflexivity|]. do 4 eexists. repeat split; vm_compute; reflexivity.
  - vm_compute. reflexivity.
Qed.
Print Assumptions C130_given_refuted.
(** Whatever becomes of make, of the installation and of the patches, a run whose tools find no changed program says that all is well. *)
Theorem C130_status : forall w t cc libcare proot clean upd id given ps execs m real,
  id <> [] -> zlen id <= 7 -> realpath 40 cc (files m) = Some real -> (forall p, has_kpatch t p = false) ->
  exists m', main w t cc libcare proot true clean upd id given ps execs m = (0, m').
Proof.
  intros w t cc libcare proot clean upd id given ps execs m real Ni Li R K. unfold main, main_checked. rewrite (teq_ne _ _ Ni), (proj2 (Z.ltb_ge _ _)) by lia. cbn [orb negb]. rewrite R.
  set (m2 := tick _). clearbody m2.
  assert (G : forall xs f tr, exists f' mk, build_kpatches t proot id given (clock m2) xs f tr = (Next f' mk, tr)).
  { induction xs as [|[o p] xs IH]; intros f tr; cbn [build_kpatches]; [do 2 eexists; reflexivity|].
    assert (E : one_exec t proot id given (clock m2) o p f = Next f None) by (unfold one_exec; destruct (content_of (lookup o f)); [|reflexivity]; destruct (content_of (lookup p f)); [|reflexivity]; rewrite K; reflexivity).
    rewrite E. apply IH. }
  destruct (G execs (files m2) (trace m2)) as (f' & mk & ->). eexists. reflexivity.
Qed.
Print Assumptions C130_status.
(** ... for instance when make does nothing. *)
Theorem C130_silent_refuted : exists w m m', (forall s now f, make_ w s now f = f) /\ go w good_tools [FIX] m = (0, m') /\ forall k, ~ In (EKpatch k) (trace m').
Proof.
  exists (World (fun _ _ f => f) (fun _ _ f => f) (fun f => f) (fun _ => false)), start. eexists. split; [reflexivity|]. split; [vm_compute; reflexivity|].
  intros k I. cbn [trace In] in I. repeat (destruct I as [I|I]; [discriminate|]). exact I.
Qed.
Print Assumptions C130_silent_refuted.

(** * C131: what the two programs are built from *)
(** With --clean, or when nothing was built before, the original program is built from the sources as they are and the patched one from the sources with the patch. *)
Theorem C131_fresh : forall c obj inst compile signal cc real clean ed m x tm y,
  NoDup [c; obj; inst Original; inst Patched; cc] -> c <> [] -> plain c = true -> base_of c = None -> base_of obj = None -> base_of (inst Original) = None -> base_of (inst Patched) = None -> base_of cc = None ->
  (forall p, lookup p (files m) <> None -> base_of p = None) ->
  lookup c (files m) = Some (File x tm) -> tm <= clock m -> (clean = true \/ lookup obj (files m) = None) -> ed (Some x) = Some y ->
  let m' := build_objects (rules c obj inst compile signal) cc real clean [[(c, ed)]] m in
  content_of (lookup (inst Original) (files m')) = Some (compile Original x) /\ content_of (lookup (inst Patched) (files m')) = Some (compile Patched y).
Proof.
  intros c obj inst compile signal cc real clean ed m x tm y D N P B1 B2 B3 B4 B5 NB L T Cl E m'.
  destruct (rule_build c obj inst compile signal cc real D (conj N (conj B1 P)) (conj B2 (conj B3 (conj B4 B5))) clean ed m x tm y) as ((n & H1) & (n' & H2)); [rewrite (restore_none _ NB); exact L|exact T|rewrite (restore_none _ NB); exact Cl|exact E|].
  split; [exact (f_equal content_of H1)|exact (f_equal content_of H2)].
Qed.
Print Assumptions C131_fresh.
(** With --clean after a run that was killed and left the backup of the source: the original program is built from the backup. *)
Theorem C131_killed : forall c obj inst compile signal cc real ed m x tm y,
  NoDup [c; obj; inst Original; inst Patched; cc] -> c <> [] -> plain c = true -> base_of c = None -> base_of obj = None -> base_of (inst Original) = None -> base_of (inst Patched) = None -> base_of cc = None ->
  (forall o, lookup o (files m) <> None -> base_of o <> None -> o = c ++ str ".0.lpmakeorig") ->
  lookup (c ++ str ".0.lpmakeorig") (files m) = Some (File x tm) -> tm <= clock m -> ed (Some x) = Some y ->
  let m' := build_objects (rules c obj inst compile signal) cc real true [[(c, ed)]] m in
  content_of (lookup (inst Original) (files m')) = Some (compile Original x) /\ content_of (lookup (inst Patched) (files m')) = Some (compile Patched y).
Proof.
  intros c obj inst compile signal cc real ed m x tm y D N P B1 B2 B3 B4 B5 NB L T E m'.
  destruct (rule_build c obj inst compile signal cc real D (conj N (conj B1 P)) (conj B2 (conj B3 (conj B4 B5))) true ed m x tm y) as ((n & H1) & (n' & H2)); [|exact T|left; reflexivity|exact E|].
  - rewrite (restore_backs [c]).
    + cbn [existsb]. rewrite teq_refl. exact L.
    + intros p [<-|[]]. auto.
    + intros p [<-|[]]. change (lookup (c ++ str ".0.lpmakeorig") (files m) <> None). rewrite L. discriminate.
    + intros o b Lo Bo. assert (X : o = c ++ BACKUP) by (apply NB; [exact Lo|rewrite Bo; discriminate]). subst o. rewrite (base_backup c N) in Bo. injection Bo as <-. split; [left; reflexivity|reflexivity].
  - split; [exact (f_equal content_of H1)|exact (f_equal content_of H2)].
Qed.
Print Assumptions C131_killed.
Example C131_case : NoDup [C; O; INST Original; INST Patched; CC] /\ (forall p, lookup p (files start) <> None -> base_of p = None) /\ lookup C (files start) = Some (File (str "x") 5) /\ 5 <= clock start /\ lookup O (files start) = None
  /\ (let f := (C ++ str ".0.lpmakeorig", File (str "x") 5) :: (C, File (str "y") 9) :: files start in forall o, lookup o f <> None -> base_of o <> None -> o = C ++ str ".0.lpmakeorig").
Proof.
  split. { repeat (constructor; [intros I; cbn [In] in I; repeat (destruct I as [I|I]; [discriminate|]); exact I|]). constructor. }
  split. { intros p H. apply in_names in H. cbn [files start map fst In] in H. destruct H as [<-|[<-|[<-|[]]]]; reflexivity. }
  split; [reflexivity|]. split; [cbn; lia|]. split; [reflexivity|].
  cbn zeta. intros o H B. apply in_names in H. cbn [files start map fst In] in H. destruct H as [<-|[<-|[<-|[<-|[<-|[]]]]]]; [reflexivity| | | |]; exfalso; apply B; reflexivity.
Qed.
(** Without --clean, a second run takes the program of the first run's patched build for the original: the old source is put back with its old time, so make does not compile it. The patch is made for a program nobody runs. *)
Theorem C131_again_refuted : exists m m1 m2, go quiet_world good_tools [FIX] m = (0, m1) /\ go quiet_world good_tools [FIX] m1 = (0, m2)
  /\ lookup C (files m1) = lookup C (files m) /\ content_of (lookup (INST Original) (files m1)) = Some (COMPILE Original (str "x"))
  /\ content_of (lookup (INST Original) (files m2)) = Some (COMPILE Patched (str "y"))
  /\ In (EKpatch (ROOT ++ str "/" ++ build_id good_tools (COMPILE Patched (str "y")) ++ str ".kpatch")) (trace m2).
Proof.
  exists start. do 2 eexists. split; [vm_compute; reflexivity|]. split; [vm_compute; reflexivity|]. repeat split; try (vm_compute; reflexivity). cbn [trace In]. repeat (first [left; reflexivity|right]).
Qed.
Print Assumptions C131_again_refuted.
