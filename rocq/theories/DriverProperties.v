(** C82, C83: the operations on one process as sequences of steps, and what they open
    and release. *)
From Verif Require Import Base BaseProofs DriverModel DriverSpec DriverProofs DriverSteps.

(** Answers given one by one, then zeros. *)
Definition answers (l : list Z) (i : nat) : Z := nth i l 0.

Lemma stops_nonneg p : stops (fst p) (snd p) = false -> 0 <= snd p.
Proof. destruct p as [x v]. cbn. destruct x; cbn; lia. Qed.
Lemma forall_nonneg pre : Forall (fun p => stops (fst p) (snd p) = false) pre -> Forall (fun p => 0 <= snd p) pre.
Proof. apply Forall_impl, stops_nonneg. Qed.
Lemma lookup_found pre : In SLookup (map fst pre) -> Forall (fun p => stops (fst p) (snd p) = false) pre ->
  exists n, In (SLookup, n) pre /\ 0 < n.
Proof.
  intros I F. apply in_map_iff in I as ((x & n) & E & I). cbn in E. subst x. exists n. split; [exact I|].
  rewrite Forall_forall in F. specialize (F _ I). cbn in F. lia.
Qed.
Lemma in_fst {A B} (a : A) (b : B) l : In (a, b) l -> In a (map fst l).
Proof. intros I. apply in_map_iff. exists (a, b). auto. Qed.

(** C82. A patch is written only after everything before it succeeded: the process is
    opened, its libraries are loaded, its objects read, a patch found, it is stopped, the
    coroutines found, the before-script run; after it come the after-script and the
    release. *)
Theorem C82_applied_only_after_success : forall orc just send v,
  In (SApply, v) (steps (d_log (snd (process_patch orc just send d0)))) ->
  exists pre post, steps (d_log (snd (process_patch orc just send d0))) = pre ++ (SApply, v) :: post /\
    map fst pre = [SInit; SLibs; SKick; SMap; SLookup; SAttach; SCoro; SBefore] /\
    Forall (fun p => 0 <= snd p) pre /\ (exists n, In (SLookup, n) pre /\ 0 < n) /\
    map fst post = [SAfter; SFree].
Proof.
  intros orc just send v I. unfold process_patch in *.
  destruct (driver_steps orc just _ positive_ok _ (patch_does orc just send)) as [(v0 & N & E & _)|(v0 & L & x & N & HL & E & _)].
  - rewrite E in I. destruct I as [I|[]]. discriminate.
  - rewrite E in I |- *. destruct I as [I|I]; [discriminate|].
    apply in_app_or in I as [I|[I|[]]]; [|discriminate].
    destruct HL as [[-> _]|C]; [destruct I|].
    destruct (chain_ends _ _ _ _ C) as [(pre & t & -> & M & A & (z & ->))|(pre & y & rest & -> & M & A & S)].
    + assert (V : v = x).
      { apply in_app_or in I as [I|[I|[I|[]]]]; [|congruence|discriminate].
        apply in_fst in I. rewrite M in I. cbn in I. intuition discriminate. }
      subst x. exists ((SInit, v0) :: pre), [(SAfter, z); (SFree, 0)].
      split; [rewrite <- app_assoc; reflexivity|]. split; [cbn; rewrite M; reflexivity|].
      split; [constructor; [exact N|apply forall_nonneg, A]|]. split; [|reflexivity].
      destruct (lookup_found pre) as (n & In_ & P); [rewrite M; cbn; auto 12|exact A|]. exists n. split; [right; exact In_|exact P].
    + exfalso. assert (J : In SApply patch_names).
      { rewrite <- M. apply in_app_or in I as [I|[I|[]]].
        - apply in_or_app. left. apply in_fst in I. exact I.
        - inversion I. subst. apply in_or_app. right. left. reflexivity. }
      cbn in J. intuition discriminate.
Qed.

(** The result of patching: 0 exactly when nothing was to be done or the patch was
    written; otherwise it is negative. *)
Theorem C82_patch_result : forall orc just send,
  let res := process_patch orc just send d0 in
  (fst res = 0 <-> In (SLookup, 0) (steps (d_log (snd res))) \/
                   exists v, 0 <= v /\ In (SApply, v) (steps (d_log (snd res)))) /\ fst res <= 0.
Proof.
  intros orc just send res. unfold res, process_patch. clear res.
  destruct (driver_steps orc just _ positive_ok _ (patch_does orc just send)) as [(v0 & N & E & R)|(v0 & L & x & N & HL & E & R)];
    rewrite E, R; unfold positive_ok.
  - replace (v0 <? 0) with true by lia. split; [|lia]. split; [lia|].
    intros [[I|[]]|(v & _ & [I|[]])]; discriminate.
  - split; [|destruct (x <? 0) eqn:Q; lia].
    destruct HL as [[-> X]|C].
    + replace (x <? 0) with true by lia. split; [lia|]. cbn. intros [H|(v & _ & H)]; intuition discriminate.
    + destruct (chain_ends _ _ _ _ C) as [(pre & t & -> & M & A & (z & ->))|(pre & y & rest & -> & M & A & S)].
      * split.
        -- intros H. right. exists x. split; [destruct (x <? 0) eqn:Q; lia|]. right. rewrite <- app_assoc.
           apply in_or_app. right. left. reflexivity.
        -- intros [[I|I]|(v & V & [I|I])]; try discriminate.
           ++ exfalso. rewrite <- app_assoc in I. apply in_app_or in I as [I|I]; [|cbn in I; intuition discriminate].
              rewrite Forall_forall in A. specialize (A _ I). cbn in A. discriminate.
           ++ rewrite <- app_assoc in I. apply in_app_or in I as [I|I].
              ** apply in_fst in I. rewrite M in I. cbn in I. intuition discriminate.
              ** cbn in I. destruct I as [I|[I|[I|[]]]]; try discriminate. inversion I. subst.
                 replace (v <? 0) with false by lia. reflexivity.
      * assert (In_ : forall q w, In (q, w) ((SInit, v0) :: (pre ++ [(y, x)]) ++ [(SFree, 0)]) ->
                  (q = y /\ w = x) \/ q = SInit \/ q = SFree \/ In (q, w) pre).
        { intros q w [I|I]; [inversion I; auto|]. apply in_app_or in I as [I|[I|[]]]; [|inversion I; auto].
          apply in_app_or in I as [I|[I|[]]]; [auto|inversion I; auto]. }
        split.
        -- intros H. left. assert (X : 0 <= x) by (destruct (x <? 0) eqn:Q; lia).
           assert (Ey : y = SLookup /\ x = 0) by (destruct y; cbn in S; try lia; split; [reflexivity|lia]).
           destruct Ey as [-> ->]. right. apply in_or_app. left. apply in_or_app. right. left. reflexivity.
        -- intros [I|(v & V & I)].
           ++ apply In_ in I as [[H1 H2]|[I|[I|I]]]; try discriminate; [subst; reflexivity|].
              rewrite Forall_forall in A. specialize (A _ I). cbn in A. discriminate.
           ++ assert (J : forall q, In q (map fst pre ++ [y]) -> q <> SApply).
              { intros q Hq. assert (J : In q patch_names).
                { rewrite <- M. apply in_app_or in Hq as [Hq|[<-|[]]]; apply in_or_app; [left; exact Hq|right; left; reflexivity]. }
                cbn in J. intuition (subst; discriminate). }
              exfalso. apply In_ in I as [[H1 H2]|[I|[I|I]]]; try discriminate.
              ** apply (J SApply); [apply in_or_app; right; left; congruence|reflexivity].
              ** apply (J SApply); [apply in_or_app; left; eapply in_fst; exact I|reflexivity].
Qed.

Lemma chain_no_free names (F : list (step * Z) -> Z -> Prop) L r : ~ In SFree names -> (forall t x, F t x -> ~ In SFree (map fst t)) ->
  chain names F L r -> ~ In SFree (map fst L).
Proof.
  intros N HF C. destruct (chain_ends _ _ _ _ C) as [(pre & t & -> & M & A & Ft)|(pre & y & rest & -> & M & A & S)].
  - rewrite map_app. intros I. apply in_app_or in I as [I|I]; [rewrite M in I; auto|exact (HF _ _ Ft I)].
  - rewrite map_app. cbn. intros I. apply N. rewrite <- M. apply in_app_or in I as [I|[I|[]]]; apply in_or_app.
    + left. exact I.
    + right. left. exact I.
Qed.

(** The process is released exactly once and last, unless it could not be opened. *)
Definition released_last (st : list (step * Z)) : Prop :=
  (exists v, v < 0 /\ st = [(SInit, v)]) \/
  (exists v mid, 0 <= v /\ st = (SInit, v) :: mid ++ [(SFree, 0)] /\ ~ In SFree (map fst mid)).
Theorem C82_released_once_and_last : forall orc just send,
  released_last (steps (d_log (snd (process_patch orc just send d0)))) /\
  released_last (steps (d_log (snd (process_unpatch orc false false d0)))) /\
  released_last (steps (d_log (snd (process_info orc false d0)))).
Proof.
  intros orc just send. split; [|split].
  - unfold process_patch.
    destruct (driver_steps orc just _ positive_ok _ (patch_does orc just send)) as [(v0 & N & E & _)|(v0 & L & x & N & HL & E & _)];
      [left; eauto|right]. exists v0, L. split; [exact N|]. split; [exact E|].
    destruct HL as [[-> _]|C]; [intros []|]. revert C. apply chain_no_free.
    + cbn. intuition discriminate.
    + intros t y (z & ->). cbn. intuition discriminate.
  - unfold process_unpatch.
    destruct (driver_steps orc false _ positive_ok _ (unpatch_does orc false false)) as [(v0 & N & E & _)|(v0 & L & x & N & C & E & _)];
      [left; eauto|right]. exists v0, L. split; [exact N|]. split; [exact E|]. revert C. apply chain_no_free.
    + cbn. intuition discriminate.
    + intros t y ->. cbn. intuition discriminate.
  - unfold process_info.
    destruct (driver_steps orc false _ (fun r => r) _ (info_does orc)) as [(v0 & N & E & _)|(v0 & L & x & N & HL & E & _)];
      [left; eauto|right]. exists v0, L. split; [exact N|]. split; [exact E|].
    destruct HL as [[-> _]|C]; [intros []|]. revert C. apply chain_no_free.
    + cbn. intuition discriminate.
    + intros t y ->. cbn. intuition discriminate.
Qed.

(** The same for taking patches out: only from a stopped process whose objects were read;
    the result is 0 exactly when that was done and did not fail. *)
Theorem C82_unapplied_only_after_success : forall orc,
  let res := process_unpatch orc false false d0 in
  (forall v, In (SUnapply, v) (steps (d_log (snd res))) ->
     exists a b c e, steps (d_log (snd res)) =
       [(SInit, a); (SAttach, b); (SMap, c); (SCoro, e); (SUnapply, v); (SFree, 0)] /\
       0 <= a /\ 0 <= b /\ 0 <= c /\ 0 <= e) /\
  (fst res = 0 <-> exists v, 0 <= v /\ In (SUnapply, v) (steps (d_log (snd res)))) /\ fst res <= 0.
Proof.
  intros orc res. unfold res, process_unpatch. clear res.
  destruct (driver_steps orc false _ positive_ok _ (unpatch_does orc false false)) as [(v0 & N & E & R)|(v0 & L & x & N & C & E & R)];
    rewrite E, R; unfold positive_ok.
  - replace (v0 <? 0) with true by lia. split; [intros v [I|[]]; discriminate|]. split; [|lia].
    split; [lia|]. intros (v & _ & [I|[]]). discriminate.
  - cbn [chain] in C. destruct C as (b & L1 & -> & [(S1 & -> & ->)|(S1 & c & L2 & -> & [(S2 & -> & ->)|(S2 & e & L3 & -> & [(S3 & -> & ->)|(S3 & ->)])])]);
      cbn [stops] in *.
    1-3: (replace (_ <? 0) with true by lia; split; [intros v I; exfalso; cbn in I; intuition discriminate|];
          split; [|lia]; split; [lia|]; intros (v & _ & I); exfalso; cbn in I; intuition discriminate).
    split; [|split].
    + intros v I. cbn in I. assert (x = v) by intuition congruence. subst v. exists v0, b, c, e. cbn. split; [reflexivity|lia].
    + split.
      * intros H. exists x. split; [destruct (x <? 0) eqn:Q; lia|]. cbn. auto 12.
      * intros (v & V & I). cbn in I. assert (x = v) by intuition congruence. subst v.
        replace (x <? 0) with false by lia. reflexivity.
    + destruct (x <? 0) eqn:Q; lia.
Qed.

(** But a failing after-script is not reported to the caller. *)
Theorem C82_after_script_refuted : exists orc,
  fst (process_patch orc false false d0) = 0 /\
  In (SAfter, -1) (steps (d_log (snd (process_patch orc false false d0)))).
Proof.
  exists (answers [0; 0; 0; 0; 0; 1; 0; 1; 1; 0; 0; 1; 0; 0; 0; 0; 2; -1]). vm_compute. split; [reflexivity|].
  intuition.
Qed.
Example C82_complete_run :
  let res := process_patch (answers [0; 0; 0; 0; 0; 1; 0; 1; 1; 0; 0; 1; 0; 0; 0; 0; 2; 0]) false false d0 in
  fst res = 0 /\ steps (d_log (snd res)) =
  [(SInit, 0); (SLibs, 0); (SKick, 0); (SMap, 0); (SLookup, 1); (SAttach, 0); (SCoro, 0); (SBefore, 0);
   (SApply, 2); (SAfter, 0); (SFree, 0)].
Proof. vm_compute. auto. Qed.

(** C83. Everything opened (the maps, the memory, the unwinding contexts, one per thread)
    is released exactly once.  Proved for a process that was already running: nothing is
    released twice, and everything is released if the process could be opened. *)
Theorem C83_released_exactly_once_partial : forall orc send,
  let patch := d_log (snd (process_patch orc false send d0)) in
  let unpatch := d_log (snd (process_unpatch orc false false d0)) in
  let info := d_log (snd (process_info orc false d0)) in
  no_double_release patch /\ no_double_release unpatch /\ no_double_release info /\
  forall v, 0 <= v ->
    (In (SInit, v) (steps patch) -> all_released patch) /\
    (In (SInit, v) (steps unpatch) -> all_released unpatch) /\
    (In (SInit, v) (steps info) -> all_released info).
Proof.
  intros orc send. cbv zeta.
  assert (G : forall body final P, does body P -> (forall L x, P L x -> ~ In SInit (map fst L)) ->
    (forall s, inv s -> d_unw s = None -> inv (snd (body s))) ->
    let log := d_log (snd (driver orc false body final d0)) in
    no_double_release log /\ forall v, 0 <= v -> In (SInit, v) (steps log) -> all_released log).
  { intros body final P Dd NI B log. destruct (driver_released orc false body final B) as [A1 A2]. split; [exact A1|].
    intros v V I. apply A2. clear A1 A2.
    assert (X : exists t, steps log = (SInit, fst (init orc false d0)) :: t /\ ~ In SInit (map fst t)).
    { pose proof (driver_steps orc false body final P Dd) as DS. cbv zeta in DS. fold log in DS.
      assert (Hd : exists t, steps log = (SInit, fst (init orc false d0)) :: t).
      { unfold log, driver. unfold bind at 1 2. pose proof (quiet_init orc false d0) as Q.
        destruct (init orc false d0) as [r s]. cbn [fst snd] in *. unfold done_step at 1. unfold bind at 1.
        assert (E : steps (d_log (snd (emit (Step SInit r) s))) = [(SInit, r)]).
        { cbn. rewrite steps_app, Q. reflexivity. }
        destruct (emit (Step SInit r) s) as [u s1]. cbn [snd ret] in *. destruct (r <? 0) eqn:R.
        - cbn. rewrite E. exists []. reflexivity.
        - unfold bind at 1. destruct (Dd s1) as (L & EL & _). destruct (body s1) as [x s2]. cbn [fst snd] in *.
          unfold bind at 1. pose proof (quiet_free s2) as E2. destruct (free s2) as [u3 s3]. cbn [snd] in E2.
          unfold bind, done_step. cbn. rewrite steps_app, E2, EL, E. eexists. reflexivity. }
      destruct Hd as (t & Et). exists t. split; [exact Et|].
      destruct DS as [(v0 & _ & E & _)|(v0 & L & x & _ & HL & E & _)]; rewrite Et in E; inversion E; subst t.
      - intros [].
      - rewrite map_app. intros J. apply in_app_or in J as [J|[J|[]]]; [exact (NI _ _ HL J)|discriminate]. }
    destruct X as (t & Et & Nt). rewrite Et in I. destruct I as [I|I]; [inversion I; lia|].
    exfalso. apply Nt. apply in_fst in I. exact I. }
  assert (NC : forall names (F : list (step * Z) -> Z -> Prop) L r, ~ In SInit names ->
     (forall t x, F t x -> ~ In SInit (map fst t)) -> chain names F L r -> ~ In SInit (map fst L)).
  { intros names F L r N HF C. destruct (chain_ends _ _ _ _ C) as [(pre & t & -> & M & A & Ft)|(pre & y & rest & -> & M & A & S)].
    - rewrite map_app. intros I. apply in_app_or in I as [I|I]; [rewrite M in I; auto|exact (HF _ _ Ft I)].
    - rewrite map_app. cbn. intros I. apply N. rewrite <- M. apply in_app_or in I as [I|[I|[]]]; apply in_or_app.
      + left. exact I.
      + right. left. exact I. }
  assert (G1 := G _ positive_ok _ (patch_does orc false send)). cbv zeta in G1.
  assert (G2 := G _ positive_ok _ (unpatch_does orc false false)). cbv zeta in G2.
  assert (G3 := G _ (fun r => r) _ (info_does orc)). cbv zeta in G3.
  destruct G1 as [A1 B1]; [|intros s; apply patch_body_inv|].
  { intros L x [[-> _]|C]; [intros []|]. revert C. apply NC; [cbn; intuition discriminate|].
    intros t y (z & ->). cbn. intuition discriminate. }
  destruct G2 as [A2 B2]; [|intros s; apply unpatch_body_inv|].
  { intros L x C. revert C. apply NC; [cbn; intuition discriminate|]. intros t y ->. cbn. intuition discriminate. }
  destruct G3 as [A3 B3]; [|intros s I _; apply info_body_inv, I|].
  { intros L x [[-> _]|C]; [intros []|]. revert C. apply NC; [cbn; intuition discriminate|].
    intros t y ->. cbn. intuition discriminate. }
  split; [exact A1|]. split; [exact A2|]. split; [exact A3|].
  intros v V. split; [exact (B1 v V)|]. split; [exact (B2 v V)|exact (B3 v V)].
Qed.
(** A run that opens five things and releases them. *)
Example C83_five :
  d_log (snd (process_patch (answers [0; 0; 0; 0; 0; 1; 0; 1; 1; 0; 0; 1; 0; 0; 0; 0; 2; 0]) false false d0)) =
  [Open 0; Open 1; Step SInit 0; Open 2; Step SLibs 0; Step SKick 0; Step SMap 0; Step SLookup 1; Close 2; Open 3;
   Open 4; Open 5; Step SAttach 0; Step SCoro 0; Step SBefore 0; Step SApply 2; Step SAfter 0; Close 0; Close 1;
   Close 3; Close 5; Close 4; Step SFree 0].
Proof. vm_compute. reflexivity. Qed.

(** A process that cannot be opened because its name cannot be read: the unwinding context
    of the coroutines stays open. *)
Theorem C83_failed_open_refuted : exists orc,
  let log := d_log (snd (process_info orc false d0)) in
  In (SInit, -1) (steps log) /\ check 0 [] log = Some (2%nat, [1%nat]).
Proof. exists (answers [0; 0; -1]). vm_compute. auto. Qed.

(** A process that was just started: if it cannot be stopped a second time, the unwinding
    context is destroyed twice. *)
Theorem C83_just_started_refuted : exists orc,
  let log := d_log (snd (process_patch orc true false d0)) in
  In (SAttach, -1) (steps log) /\ check 0 [] log = None.
Proof.
  exists (answers [0; 0; 0; 0; 1; 1; 0; 0; 1; 0; 0; 0; 0; 0; 1; 0; -1]). vm_compute. intuition.
Qed.
(** And if its maps cannot be locked again after execve, their descriptor is closed twice. *)
Theorem C83_execve_refuted : exists orc,
  let log := d_log (snd (process_patch orc true true d0)) in
  In (SLibs, -1) (steps log) /\ check 0 [] log = None.
Proof.
  exists (answers [0; 0; 0; 0; 1; 1; 0; 0; 1; 0; 0; 0; 0; 0; -1]). vm_compute. intuition.
Qed.

Print Assumptions C82_applied_only_after_success.
Print Assumptions C82_patch_result.
Print Assumptions C82_released_once_and_last.
Print Assumptions C82_unapplied_only_after_success.
Print Assumptions C82_after_script_refuted.
Print Assumptions C83_released_exactly_once_partial.
Print Assumptions C83_failed_open_refuted.
Print Assumptions C83_just_started_refuted.
Print Assumptions C83_execve_refuted.

Ltac redd := cbv beta iota zeta; cbn [d_i d_thr d_next d_log d_maps d_mem d_coro d_unw].
(** A failure inside a step is a failure of the step.  Stopping the threads: all of them
    are stopped and have their context, or the result is negative. *)
Theorem C82_threads : forall orc n s r s', attach_threads orc n s = (r, s') ->
  (r = 0 /\ (forall i, (d_i s <= i < d_i s')%nat -> 0 <= orc i) /\ d_i s' = (d_i s + 2 * n)%nat /\
     length (d_thr s') = (n + length (d_thr s))%nat) \/
  (r = -1 /\ exists i, (d_i s <= i < d_i s')%nat /\ orc i < 0).
Proof.
  intros orc n. induction n as [|n IH]; intros s r s'; cbn [attach_threads].
  - unfold ret. intros [= <- <-]. left. split; [reflexivity|]. split; [intros; lia|]. split; cbn; lia.
  - unfold bind, ask, open_, get, set_thr, ret. redd.
    destruct (orc (d_i s) <? 0) eqn:E1.
    + intros [= <- <-]. right. split; [reflexivity|]. exists (d_i s). cbn. lia.
    + redd. destruct (orc (S (d_i s)) <? 0) eqn:E2.
      * intros [= <- <-]. right. split; [reflexivity|]. exists (S (d_i s)). cbn. lia.
      * intros H. apply IH in H. cbn [d_i d_thr length] in H.
        destruct H as [(I1 & I2 & I3 & I4)|(I1 & i & Hi & Hn)].
        -- left. split; [exact I1|]. split; [|split; lia].
           intros i Hi. destruct (Nat.eq_dec i (d_i s)) as [->|]; [lia|]. destruct (Nat.eq_dec i (S (d_i s))) as [->|]; [lia|].
           apply I2. lia.
        -- right. split; [exact I1|]. exists i. split; [lia|exact Hn].
Qed.
Print Assumptions C82_threads.

(** Starting the new program: its result is 0 only when the last of its system calls, which
    are the call of execve, opening the memory and the maps and reading who the process is,
    did not fail; and of the threads those are kept for which the system answers 0. *)
Lemma drop_answers orc : forall l s k s', drop_threads orc l s = (k, s') ->
  d_i s' = (d_i s + length l)%nat /\
  k = map snd (filter (fun p => orc (fst p) =? 0) (combine (seq (d_i s) (length l)) l)).
Proof.
  induction l as [|a l IH]; intros s k s'; cbn [drop_threads].
  - unfold ret. intros [= <- <-]. cbn. split; [lia|reflexivity].
  - unfold bind, ask, close_, emit, ret. redd.
    match goal with |- context [drop_threads orc l ?q] => destruct (drop_threads orc l q) as [k2 s2] eqn:E end.
    apply IH in E. cbn [d_i] in E. destruct E as [E1 E2]. cbn [length seq combine filter fst].
    redd. destruct (orc (d_i s) =? 0); intros [= <- <-]; cbn [d_i map snd]; rewrite ?E2; (split; [cbn; lia|reflexivity]).
Qed.
Theorem C82_kickstart : forall orc s r s', kickstart orc s = (r, s') ->
  r = -1 \/ (r = 0 /\ 0 <= orc (d_i s) /\
    let e := (d_i s + 1 + length (d_thr s))%nat in
    0 <= orc e /\ 0 <= orc (e + 1)%nat /\ 0 <= orc (e + 2)%nat /\
    d_thr s' = map snd (filter (fun p => orc (fst p) =? 0) (combine (seq (d_i s + 1) (length (d_thr s))) (d_thr s)))).
Proof.
  intros orc s r s'. unfold kickstart. unfold bind at 1, ask at 1. cbv beta iota zeta.
  destruct (orc (d_i s) <? 0) eqn:E; [unfold ret; intros [= <- <-]; left; reflexivity|].
  unfold bind at 1, get at 1. cbv beta iota zeta. unfold bind at 1. cbn [d_thr].
  match goal with |- context [drop_threads orc ?l ?q] => destruct (drop_threads orc l q) as [t' s2] eqn:Dr end.
  apply drop_answers in Dr. cbn [d_i] in Dr. destruct Dr as [D1 D2].
  unfold bind at 1, set_thr at 1. cbv beta iota zeta. unfold bind at 1, get at 1. cbv beta iota zeta. unfold bind at 1. cbn [d_mem].
  match goal with |- context [close_opt ?m ?q] => assert (CO : d_i (snd (close_opt m q)) = d_i q /\ d_thr (snd (close_opt m q)) = d_thr q)
    by (destruct m; split; reflexivity); destruct (close_opt m q) as [u s3] end. cbn [snd d_i d_thr] in CO. destruct CO as [C1 C2].
  unfold bind, ask, open_, set_mem, set_maps, get, close_, emit, ret. redd.
  destruct (orc (d_i s3) <? 0) eqn:E1; [intros [= <- <-]; left; reflexivity|].
  redd. destruct (orc (S (d_i s3)) <? 0) eqn:E2; [intros [= <- <-]; left; reflexivity|].
  redd. destruct (orc (S (S (d_i s3))) <? 0) eqn:E3; intros [= <- <-]; [left; reflexivity|].
  right. split; [reflexivity|]. split; [lia|]. cbn [d_thr].
  replace (d_i s + 1 + length (d_thr s))%nat with (d_i s3) by lia.
  replace (d_i s3 + 1)%nat with (S (d_i s3)) by lia. replace (d_i s3 + 2)%nat with (S (S (d_i s3))) by lia.
  rewrite C2, D2. replace (d_i s + 1)%nat with (S (d_i s)) by lia. repeat split; lia.
Qed.
Print Assumptions C82_kickstart.
Example C82_inside_cases : fst (attach_threads (fun i => nth i [0; 0; 0; 0] 0) 2 d0) = 0 /\
  fst (attach_threads (fun i => nth i [0; 0; 0; -1] 0) 2 d0) = -1 /\
  fst (kickstart (fun i => nth i [0; 0; 0; 0] 0) d0) = 0 /\ fst (kickstart (fun i => nth i [0; 0; 0; -1] 0) d0) = -1.
Proof. vm_compute. auto. Qed.
(** Attaching: when the memory cannot be opened or the unwinding context is not to be had the result is -1;
    when it is 0 both are there. *)
Lemma bind_inv {A B} (m : D A) (k : A -> D B) s r s' : bind m k s = (r, s') -> exists a s1, m s = (a, s1) /\ k a s1 = (r, s').
Proof. unfold bind. destruct (m s) as [a s1]. eauto. Qed.
Lemma threads_keep orc : forall n s r s', attach_threads orc n s = (r, s') -> d_unw s' = d_unw s /\ d_mem s' = d_mem s.
Proof.
  induction n as [|n IH]; intros s r s' H; cbn [attach_threads] in H; [injection H as _ <-; auto|].
  apply bind_inv in H as (a & s1 & E1 & H). injection E1 as _ <-. destruct (a <? 0); [injection H as _ <-; auto|].
  apply bind_inv in H as (id & s2 & E2 & H). injection E2 as _ <-. apply bind_inv in H as (t & s3 & E3 & H). injection E3 as _ <-.
  apply bind_inv in H as (u & s4 & E4 & H). injection E4 as _ <-. apply bind_inv in H as (q & s5 & E5 & H). injection E5 as _ <-.
  destruct (q <? 0); [injection H as _ <-; auto|]. apply IH in H. exact H.
Qed.
Lemma attempts_keep orc just send : forall k first s a s', attempts orc just send first k s = (a, s') -> d_unw s' = d_unw s /\ d_mem s' = d_mem s.
Proof.
  induction k as [|k IH]; intros first s a s' H; cbn [attempts] in H; [injection H as _ <-; auto|].
  apply bind_inv in H as (p & s1 & E1 & H). injection E1 as _ <-. destruct (p =? -1); [injection H as _ <-; auto|].
  apply bind_inv in H as (b & s2 & E2 & H).
  assert (K : d_unw s2 = d_unw s /\ d_mem s2 = d_mem s).
  { destruct first; [injection E2 as _ <-; auto|]. apply bind_inv in E2 as (x & s3 & E3 & E2). injection E3 as _ <-. injection E2 as _ <-. auto. }
  destruct K as [K1 K2]. destruct b; [injection H as _ <-; auto|]. destruct (just && (1 <? p) && negb send); [injection H as _ <-; auto|].
  apply bind_inv in H as (n & s3 & E3 & H). injection E3 as _ <-. apply bind_inv in H as (r & s4 & E4 & H).
  apply threads_keep in E4. cbn [d_unw d_mem] in E4. destruct (r <? 0); [injection H as _ <-; split; destruct E4; congruence|].
  apply IH in H. destruct H, E4. split; congruence.
Qed.
Lemma mem_open_inv orc s r s' : mem_open orc s = (r, s') ->
  d_unw s' = d_unw s /\ (r = -1 /\ orc (d_i s) < 0 \/ r = 0 /\ 0 <= orc (d_i s) /\ d_mem s' <> None).
Proof.
  intros H. unfold mem_open in H. apply bind_inv in H as (m & s1 & E1 & H). injection E1 as <- <-.
  apply bind_inv in H as (u & s2 & E2 & H). assert (K : d_i s2 = d_i s /\ d_unw s2 = d_unw s).
  { unfold close_opt, close_, emit, ret in E2. destruct (d_mem s); injection E2 as _ <-; auto. }
  destruct K as [K1 K2]. apply bind_inv in H as (q & s3 & E3 & H). injection E3 as E3 E4. rewrite K1 in E3. subst q s3.
  destruct (orc (d_i s) <? 0) eqn:N.
  - apply bind_inv in H as (v & s4 & E4 & H). injection E4 as _ <-. injection H as <- <-. split; [exact K2|]. left. split; [reflexivity|lia].
  - apply bind_inv in H as (v & s4 & E4 & H). injection E4 as <- <-. apply bind_inv in H as (v & s5 & E5 & H). injection E5 as _ <-.
    injection H as <- <-. split; [exact K2|]. right. split; [reflexivity|]. split; [lia|discriminate].
Qed.
Theorem C82_attach : forall orc just send s r s', attach orc just send s = (r, s') ->
  (r = 0 \/ r = -1) /\ (orc (d_i s) < 0 -> r = -1) /\
  (r = 0 -> d_unw s' <> None /\ d_mem s' <> None /\ (d_unw s = None -> 0 <= orc (pred (d_i s')))).
Proof.
  intros orc just send s r s' H. unfold attach in H. apply bind_inv in H as (a & s1 & E1 & H). apply mem_open_inv in E1 as (U1 & [(-> & N)|(-> & N & M)]).
  { injection H as <- <-. split; [auto|]. split; [auto|discriminate]. }
  change (0 <? 0) with false in H. cbn iota in H. apply bind_inv in H as (at_ & s2 & E2 & H). apply attempts_keep in E2 as (U2 & M2).
  destruct at_.
  - apply bind_inv in H as (u & s3 & E3 & H). injection E3 as E3 <-. destruct u as [u|].
    + injection H as <- <-. split; [auto|]. split; [lia|]. intros _. split; [congruence|]. split; congruence.
    + apply bind_inv in H as (c & s4 & E4 & H). injection E4 as E4 <-. destruct (c <? 0) eqn:C.
      * apply bind_inv in H as (x & s5 & E5 & H). injection H as <- <-. split; [auto|]. split; [auto|discriminate].
      * apply bind_inv in H as (id & s5 & E5 & H). injection E5 as <- <-. apply bind_inv in H as (v & s6 & E6 & H). injection E6 as _ <-. injection H as <- <-.
        split; [auto|]. split; [lia|]. intros _. cbn. split; [discriminate|]. split; [congruence|]. intros _. subst c. lia.
  - apply bind_inv in H as (x & s5 & E5 & H). injection H as <- <-. split; [auto|]. split; [auto|discriminate].
  - injection H as <- <-. split; [auto|]. split; [auto|discriminate].
Qed.
Print Assumptions C82_attach.
Example C82_attach_case : fst (attach (fun i => nth i [0; 1; 1; 0; 0; 1; 0; -1] 0) false false d0) = -1 /\
  fst (attach (fun i => nth i [0; 1; 1; 0; 0; 1; 0; 0] 0) false false d0) = 0.
Proof. vm_compute. auto. Qed.
