(** C61 and C64, what holds of them: unpatching and the replaced functions; where threads are after they were run forward. *)
From Coq Require Import ZArith List Bool Lia.
From Verif Require Import Base BaseProofs RemoteModel EngineModel EngineSpec SafetyModel SafetySpec SafetyProofs SafetyProperties
  PtraceModel PtraceSpec PtraceProofs PtraceRunProofs PtraceProperties.
Import ListNotations.
Open Scope Z_scope.

(** ** C61.  A verdict of "safe" for unpatching means that every thread and coroutine could be looked at and that none of their
    visible frames is in the code that replaced a function.  (Functions that exist only in the patch are missing:
    C61_new_functions_ignored_refuted.) *)
Theorem C61_replacements_partial : forall infos coros threads junk,
  ranges_ok Unapply infos -> zlen threads < 2 ^ 32 ->
  fst (verify_safety Unapply infos coros threads junk) = 0 ->
  forall l, In l (coros ++ threads) -> exists sk, l = Unwound sk /\
    forall ip i, ip = sk_ip sk \/ In ip (sk_rest sk) -> In i infos -> daddr i <> 0 \/ dlen i <> 0 ->
    ip < saddr i \/ saddr i + slen i <= ip.
Proof.
  intros infos coros threads junk HR Hn H0 l Hl.
  apply (verify_safe_iff Unapply infos HR coros threads junk Hn) in H0. rewrite Forall_forall in H0.
  destruct (H0 l Hl) as (sk & -> & Hs). exists sk. split; [reflexivity|]. intros ip i Hip Hi Hd.
  assert (N : ~ in_range ip (saddr i) (slen i)).
  { intros C. apply (Hs ip); [destruct Hip as [->|Hip]; [left; reflexivity|right; exact Hip]|]. exists i. split; [exact Hi|]. split; [unfold replaces_code; lia|exact C]. }
  unfold in_range in N. lia.
Qed.
Print Assumptions C61_replacements_partial.
Example C61_case :
  ranges_ok Unapply ex_infos /\ fst (verify_safety Unapply ex_infos [] [ex_thread [0x400110; 0x500000]] 0) = 0 /\
  fst (verify_safety Unapply ex_infos [] [ex_thread [0x400110; 0x500305]] 0) <> 0.
Proof. split; [apply ex_ranges|]. split; [reflexivity|discriminate]. Qed.

(** ** C64.  Where each thread is afterwards *)
Definition run_on (t t' : thr) : Prop :=
  t_pid t' = t_pid t /\ t_until t' = t_until t /\ (t_until t <> 0 -> t_running t' = true \/ t_running t' = false /\ t_pc t' = t_until t).

Lemma on_pid_run pid f ts ts' : Forall2 run_on ts ts' -> (forall t t', run_on t t' -> run_on t (f t')) -> Forall2 run_on ts (on_pid pid f ts').
Proof. intros H Hf. unfold on_pid. induction H; cbn; constructor; auto. destruct (_ =? _); auto. Qed.

Lemma waitpid_run brk e ts0 ts : Forall2 run_on ts0 ts -> event_fine (zlen brk) ts e -> (forall p, e <> WExit p) ->
  Forall2 run_on ts0 (snd (fst (arch_waitpid brk e ts))).
Proof.
  intros H HE HX. destruct e as [|q|b|pid|pid sig pc gr sr]; cbn [arch_waitpid] in *; try exact H.
  - destruct (HX pid eq_refl).
  - destruct HE as (-> & -> & t & Hf & Hu & Hpc). cbn [negb].
    rewrite (find_on_pid pid _ ts t) by (auto || (intros; reflexivity)). cbn [t_until stopped_at].
    replace (t_until t =? 0) with false by lia.
    replace (pc =? u64 (t_until t + Z.of_nat (length brk))) with true
      by (unfold u64; fold (zlen brk); symmetry; apply Z.eqb_eq; exact Hpc).
    cbn [negb andb fst snd].
    assert (G : on_pid pid (fun t => set_pc (t_until t) t) (on_pid pid (set_running false) (on_pid pid (stopped_at pc sig) ts))
                = on_pid pid (fun t => set_pc (t_until t) (set_running false (stopped_at pc sig t))) ts).
    { clear. unfold on_pid. rewrite !map_map. apply map_ext. intros t. destruct (t_pid t =? pid) eqn:E; cbn; rewrite E; cbn; rewrite ?E; reflexivity. }
    rewrite G. apply on_pid_run; [exact H|]. intros a a' (A & B & C). split; [exact A|]. split; [exact B|]. intros _. right. split; [reflexivity|exact B].
Qed.

Lemma wait_loop_run brk ts0 : forall evs ts a b c en, Forall2 run_on ts0 ts -> en <> esrch -> en <> echild ->
  events_fine brk evs ts -> (forall e p, In e evs -> fst e <> WExit p) ->
  Forall2 run_on ts0 (fst (wait_loop brk evs ts a b c en)) /\ snd (wait_loop brk evs ts a b c en) <> esrch /\
  snd (wait_loop brk evs ts a b c en) <> echild.
Proof.
  induction evs as [|[e dt] r IH]; intros ts a b c en H E1 E2 HE HX; cbn [wait_loop].
  - destruct (_ || _); auto.
  - destruct (_ || _); [auto|]. destruct HE as [HE HR].
    pose proof (waitpid_run brk e ts0 ts H HE (fun p => HX (e, dt) p (or_introl eq_refl))) as W.
    assert (EN : forall x, snd (arch_waitpid brk e ts) = Some x -> x <> esrch /\ x <> echild).
    { intros x Q. destruct e as [|q|b0|pid|pid sig pc gr sr]; cbn in Q, HE; try discriminate.
      - injection Q as <-. tauto.
      - destruct b0; [discriminate|contradiction].
      - destruct HE as (-> & -> & t & Hf & Hu & Hpc). cbn in Q.
        rewrite (find_on_pid pid _ ts t) in Q by (auto || (intros; reflexivity)). cbn [t_until stopped_at] in Q.
        replace (t_until t =? 0) with false in Q by lia.
        replace (pc =? u64 (t_until t + Z.of_nat (length brk))) with true in Q
          by (unfold u64; fold (zlen brk); symmetry; apply Z.eqb_eq; exact Hpc). discriminate. }
    destruct (arch_waitpid brk e ts) as [[rv ts1] en1]. cbn [fst snd] in W, HR, EN.
    assert (Q : match en1 with Some x => x | None => en end <> esrch /\ match en1 with Some x => x | None => en end <> echild)
      by (destruct en1 as [x|]; [exact (EN x eq_refl)|tauto]).
    destruct (rv <? 0); [cbn [fst snd]; tauto|]. destruct (rv =? 1); apply IH; try tauto; intros e' p I; apply HX; right; exact I.
Qed.

Lemma resume_run : forall ts ok, (forall b, In b ok -> b = true) ->
  Forall2 run_on ts (fst (fst (resume ok ts))) /\ snd (resume ok ts) = true.
Proof.
  induction ts as [|t r IH]; intros ok Hok; cbn [resume]; [split; [constructor|reflexivity]|].
  destruct (Z.eqb_spec (t_until t) 0) as [Eu|Eu].
  - destruct (IH ok Hok) as [A B]. destruct (resume ok r) as [[r' n] b]. cbn [fst snd] in *. split; [|exact B]. constructor; [|exact A].
    split; [reflexivity|]. split; [reflexivity|]. intros C. contradiction.
  - assert (Ht : hd true ok = true) by (destruct ok; cbn; auto; apply Hok; left; auto). rewrite Ht.
    assert (Hok' : forall b, In b (tl ok) -> b = true) by (intros b Hb; apply Hok; destruct ok; [destruct Hb|right; auto]).
    destruct (IH (tl ok) Hok') as [A B]. destruct (resume (tl ok) r) as [[r' n] b]. cbn [fst snd] in *. split; [|exact B]. constructor; [|exact A].
    split; [reflexivity|]. split; [reflexivity|]. intros _. left. reflexivity.
Qed.

(** The thread is at its target, or where the tool's SIGSTOP met it, or it is gone. *)
Definition ends_at (stop : Z -> stop_answer) (t t' : thr) : Prop :=
  t_pid t' = t_pid t /\
  (t_until t <> 0 -> t_pc t' = t_until t \/ (exists sig, stop (t_pid t) = SStop sig (t_pc t')) \/ stop (t_pid t) = SExit).

Lemma stop_all_run ans ts0 : (forall p, ans p <> SChild) -> forall ts en, en <> esrch -> en <> echild ->
  Forall2 run_on ts0 ts -> Forall2 (ends_at ans) ts0 (stop_all ans ts en).
Proof.
  intros HA. intros ts en H1 H2 H. revert en H1 H2. induction H as [|t t' r r' (A & B & C) H IH]; intros en H1 H2; cbn [stop_all]; [constructor|].
  destruct (t_running t') eqn:ER; cbn [negb].
  - replace ((en =? esrch) || (en =? echild)) with false by lia.
    destruct (ans (t_pid t')) as [sig pc| |] eqn:EA; [| |exfalso; eapply HA; eauto]; (constructor; [|apply IH; auto]); split; try exact A; intros _; right.
    + left. exists sig. rewrite <- A. exact EA.
    + right. rewrite <- A. exact EA.
  - constructor; [|apply IH; auto]. split; [exact A|]. intros Hu. left. destruct (C Hu) as [C'|[_ C']]; [congruence|exact C'].
Qed.

Theorem C64_place_partial brk w ts timeout s bk s1 rv ts' s' :
  rw_calloc w = true -> rw_sigmask w = true -> (forall b, In b (rw_cont w) -> b = true) ->
  (forall p, rw_stop w p <> SChild) ->
  events_fine brk (rw_events w) (fst (fst (resume (rw_cont w) ts))) ->
  (forall e p, In e (rw_events w) -> fst e <> WExit p) ->
  install brk (map t_until ts) [] s = (Ret (bk, true), s1) ->
  execute_until brk w ts timeout s = (Ret (rv, ts'), s') ->
  (exists t, In t ts /\ t_until t <> 0) ->
  Forall2 (ends_at (rw_stop w)) ts ts'.
Proof.
  intros HC HM HK HS HE HX HI H (t0 & I0 & U0). unfold execute_until in H.
  assert (N : 0 < zlen (filter (fun t => negb (t_until t =? 0)) ts)).
  { unfold zlen. assert (I : In t0 (filter (fun t => negb (t_until t =? 0)) ts)) by (apply filter_In; split; [exact I0|]; apply negb_true_iff; lia).
    destruct (filter _ ts); [destruct I|cbn [length]; lia]. }
  destruct (Z.eqb_spec (zlen (filter (fun t => negb (t_until t =? 0)) ts)) 0) as [E|_]; [lia|].
  rewrite HC in H. cbn [negb] in H. unfold bind in H. rewrite HI in H. rewrite HM in H. cbn [andb] in H.
  destruct (resume_run ts (rw_cont w) HK) as [R1 R2]. destruct (resume (rw_cont w) ts) as [[ts1 n] b]. cbn [fst snd] in R1, R2, HE. subst b.
  pose proof (wait_loop_run brk ts (rw_events w) ts1 n (zlen (filter (fun t => negb (t_until t =? 0)) ts)) timeout 0 R1
    ltac:(discriminate) ltac:(discriminate) HE HX) as (W1 & W2 & W3).
  destruct (wait_loop brk (rw_events w) ts1 n _ timeout 0) as [ts2 en]. cbn [fst snd] in W1, W2, W3. unfold ret in H.
  destruct (restore bk 0 _) as [[q| | | |] s2]; try discriminate. injection H as _ <- _.
  pose proof (stop_all_run (rw_stop w) ts HS ts2 en W2 W3 W1) as F. clear - F.
  induction F as [|a b r r' P F IH]; cbn [map]; constructor; [|exact IH]. destruct (existsb _ _); exact P.
Qed.
Print Assumptions C64_place_partial.
Example C64_case :
  let w := px_world [(WStop 10 5 0x1101 true true, 2); (WNone, 5); (WFail 11, 3000)] (fun _ => SStop 19 0x1050) in
  let ts := [px_thr 10 0x1100; px_thr 11 0x1200] in
  events_fine break_others (rw_events w) (fst (fst (resume (rw_cont w) ts))) /\
  (exists bk s1, install break_others (map t_until ts) [] (px_st []) = (Ret (bk, true), s1)) /\
  (exists ts', fst (execute_until break_others w ts 3000 (px_st [])) = Ret (0, ts') /\ map t_pc ts' = [0x1100; 0x1050]).
Proof.
  split; [|split; [do 2 eexists; cbv [map px_thr t_until install mem_read]; vm_compute; reflexivity|eexists; split; vm_compute; reflexivity]].
  split; [|split; [exact I|split; [split; discriminate|exact I]]].
  split; [reflexivity|]. split; [reflexivity|]. eexists. split; [reflexivity|]. split; [discriminate|reflexivity].
Qed.
