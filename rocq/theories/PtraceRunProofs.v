(** Proofs about breakpoints, remote execution and attaching. *)
From Coq Require Import ZArith List Bool Lia ZifyBool ZifyNat.
From Verif Require Import Base BaseProofs RemoteModel EngineModel EngineProofs PeekProofs PtraceModel PtraceSpec PtraceProofs.
Import ListNotations.
Open Scope Z_scope.

(** ** Breakpoints *)
Section B.
Variable brk : list Z.
Variable targets : list Z.
Hypothesis apart : targets_apart (zlen brk) targets.
Let L := zlen brk.

Record inv (m0 : mem) (bk : list bkpt) (m : mem) : Prop := {
  i_want : forall b, In b bk -> In (fst b) targets /\ fst b <> 0;
  i_nodup : NoDup (map fst bk);
  i_orig : forall b, In b bk -> mread m0 (fst b) (length brk) = Some (snd b);
  i_in : forall b x, In b bk -> in_range x (fst b) L -> m x <> None;
  i_out : forall x, (forall b, In b bk -> ~ in_range x (fst b) L) -> m x = m0 x }.

Lemma apart_bk m0 bk m b c : inv m0 bk m -> In b bk -> In c bk -> fst b <> fst c ->
  fst b + L <= fst c \/ fst c + L <= fst b.
Proof.
  intros I Hb Hc Hn. destruct (i_want _ _ _ I b Hb), (i_want _ _ _ I c Hc).
  apply apart; auto.
Qed.

Lemma pop_sm s : sm (snd (pop s)) = sm s.
Proof. unfold pop. destruct (so s); reflexivity. Qed.
Lemma pop_so s : (so (snd (pop s)) = [] /\ so s = []) \/ (exists a, so s = a :: so (snd (pop s)) /\ fst (pop s) = a).
Proof. unfold pop. destruct (so s) eqn:E; [left|right; eexists]; cbn; auto. Qed.

Lemma read_sm a n s : sm (snd (mem_read a n s)) = sm s.
Proof.
  unfold mem_read. pose proof (pop_sm s) as E. destruct (pop s) as [[| |] s']; cbn in *; auto.
  destruct (mread (sm s') a n); auto.
Qed.
Lemma read_ret a n s bs s' : mem_read a n s = (Ret bs, s') -> mread (sm s) a n = Some bs.
Proof.
  unfold mem_read. pose proof (pop_sm s) as E. destruct (pop s) as [[| |] s1]; cbn in *; try discriminate.
  destruct (mread (sm s1) a n) eqn:Q; [|discriminate]. intros H. injection H as <- <-. rewrite <- E. auto.
Qed.
Lemma read_so a n s : Forall fails_clean (so s) -> Forall fails_clean (so (snd (mem_read a n s))).
Proof.
  intros H. unfold mem_read. destruct (pop_so s) as [[E1 E2]|(an & E1 & E2)]; destruct (pop s) as [[| |] s1]; cbn in *;
  try (destruct (mread (sm s1) a n)); cbn; try (rewrite E1; constructor); rewrite E1 in H; inversion H; auto.
Qed.
Lemma write_clean a bs s : Forall fails_clean (so s) -> mapped (sm s) a (zlen bs) ->
  match mem_write a bs s with
  | (Ret _, s') => (forall x, sm s' x = mset (sm s) a bs x) /\ Forall fails_clean (so s')
  | (Err, s') => (forall x, sm s' x = sm s x) /\ Forall fails_clean (so s')
  | (Die, _) => True
  | _ => False
  end.
Proof.
  intros H Hm. unfold mem_write. pose proof (pop_sm s) as E.
  assert (HF : Forall fails_clean (so (snd (pop s)))).
  { destruct (pop_so s) as [[E1 E2]|(an & E1 & E2)]; [rewrite E1; constructor|]. rewrite E1 in H. inversion H; auto. }
  assert (HA : fails_clean (fst (pop s))).
  { destruct (pop_so s) as [[E1 E2]|(an & E1 & E2)]; [unfold pop; rewrite E2; exact I|].
    rewrite E1 in H. inversion H; subst; auto. }
  destruct (pop s) as [[|k|k] s1]; cbn [fst snd fails_clean] in *; auto.
  - rewrite E. rewrite pwrite_full by auto. rewrite Nat.eqb_refl. split; auto.
  - subst k. cbn. split; auto. intros x. rewrite mset_nil, E. reflexivity.
Qed.

Lemma existsb_fst t (bk : list bkpt) : existsb (fun b => fst b =? t) bk = false ->
  forall b, In b bk -> fst b <> t.
Proof.
  intros H b Hb E. assert (existsb (fun b => fst b =? t) bk = true); [|congruence].
  apply existsb_exists. exists b. split; auto. apply Z.eqb_eq; auto.
Qed.

Lemma install_inv m0 : forall ts bk s, incl ts targets -> inv m0 bk (sm s) -> Forall fails_clean (so s) ->
  match install brk ts bk s with
  | (Ret (bk', c), s') => inv m0 bk' (sm s')
  | (Die, _) => True
  | _ => False
  end.
Proof.
  induction ts as [|t r IH]; intros bk s Hi I HF; cbn [install]; [exact I|].
  assert (Hr : incl r targets) by (intros q Hq; apply Hi; right; auto).
  destruct (Z.eqb_spec t 0) as [T0|T0]; [apply IH; auto|].
  destruct (existsb (fun b => fst b =? t) bk) eqn:EX; [apply IH; auto|].
  pose proof (existsb_fst _ _ EX) as NE.
  pose proof (read_sm t (length brk) s) as RS.
  pose proof (read_so t (length brk) s HF) as RF.
  pose proof (read_ret t (length brk) s) as RR.
  destruct (mem_read t (length brk) s) as [[orig| | | |] s1] eqn:EM; cbn [snd] in *.
  2: { rewrite RS. exact I. }
  2: { exact Logic.I. }
  2: { unfold mem_read in EM. destruct (pop s) as [[| |] q]; [destruct (mread (sm q) t (length brk))| |]; discriminate. }
  2: { unfold mem_read in EM. destruct (pop s) as [[| |] q]; [destruct (mread (sm q) t (length brk))| |]; discriminate. }
  specialize (RR orig s1 eq_refl).
  assert (Hmap : mapped (sm s1) t (zlen brk)).
  { intros x Hx. rewrite RS. apply mread_spec in RR. destruct RR as [_ D].
    rewrite D; [discriminate|exact Hx]. }
  pose proof (write_clean t brk s1 RF Hmap) as W.
  destruct (mem_write t brk s1) as [[u| | | |] s2]; try contradiction; try exact Logic.I.
  - destruct W as [W WF]. apply IH; auto.
    assert (Hfree : forall b x, In b bk -> in_range x (fst b) L -> in_range x t (zlen brk) -> False).
    { intros b x Hb H1 H2. destruct (i_want _ _ _ I b Hb) as [Q1 Q2].
      destruct (apart (fst b) t Q1 (Hi t (or_introl eq_refl)) Q2 T0 (NE b Hb)); unfold in_range, L in *; lia. }
    constructor.
    + intros b Hb. apply in_app_or in Hb. destruct Hb as [Hb|[<-|[]]]; [apply (i_want _ _ _ I); auto|].
      cbn. split; auto. apply Hi. left; auto.
    + rewrite map_app. cbn. apply NoDup_Add with (a := t) (l := map fst bk).
      { rewrite <- (app_nil_r (map fst bk)) at 1. apply Add_app. }
      split; [apply (i_nodup _ _ _ I)|]. intros Hin. apply in_map_iff in Hin.
      destruct Hin as (b & E & Hb). apply (NE b Hb). auto.
    + intros b Hb. apply in_app_or in Hb. destruct Hb as [Hb|[<-|[]]]; [apply (i_orig _ _ _ I); auto|].
      cbn. rewrite <- RR. apply mread_ext. intros x Hx. symmetry. apply (i_out _ _ _ I).
      intros b Hb H1. apply (Hfree b x Hb H1). exact Hx.
    + intros b x Hb Hx. rewrite W. unfold mset. destruct ((t <=? x) && (x <? t + zlen brk)) eqn:E; [discriminate|].
      apply in_app_or in Hb. destruct Hb as [Hb|[<-|[]]].
      * rewrite RS. eapply (i_in _ _ _ I); eauto.
      * cbn in Hx. unfold in_range, L in Hx. lia.
    + intros x Hx. rewrite W. rewrite mset_out; [rewrite RS; apply (i_out _ _ _ I)|].
      * intros b Hb. apply Hx. apply in_or_app; auto.
      * apply (Hx (t, orig)). apply in_or_app; right; left; auto.
  - destruct W as [W _]. constructor.
    + apply (i_want _ _ _ I).
    + apply (i_nodup _ _ _ I).
    + apply (i_orig _ _ _ I).
    + intros b x Hb Hx. rewrite W, RS. eapply (i_in _ _ _ I); eauto.
    + intros x Hx. rewrite W, RS. apply (i_out _ _ _ I); auto.
Qed.

(** Restoring: [done] are back already. *)
Lemma restore_spec m0 mp : forall bk r0 s, so s = [] ->
  NoDup (map fst bk) ->
  (forall b, In b bk -> In (fst b) targets /\ fst b <> 0) ->
  (forall b, In b bk -> mread m0 (fst b) (length brk) = Some (snd b)) ->
  (forall b x, In b bk -> in_range x (fst b) L -> sm s x <> None) ->
  (forall x, (forall b, In b bk -> ~ in_range x (fst b) L) -> sm s x = mp x) ->
  exists s' rv, restore bk r0 s = (Ret rv, s') /\
    (forall b x, In b bk -> in_range x (fst b) L -> sm s' x = m0 x) /\
    (forall x, (forall b, In b bk -> ~ in_range x (fst b) L) -> sm s' x = mp x).
Proof.
  induction bk as [|b r IH] in mp |- *; intros r0 s Hs ND HW HO HM HX; cbn [restore].
  - exists s, r0. split; auto. split; [intros ? ? []|auto].
  - assert (Lb : zlen (snd b) = L).
    { pose proof (HO b (or_introl eq_refl)) as H. apply mread_length in H. unfold L, zlen. lia. }
    unfold mem_write, pop. rewrite Hs. rewrite pwrite_full.
    2:{ intros x Hx. rewrite Lb in Hx. apply (HM b x (or_introl eq_refl) Hx). }
    rewrite Nat.eqb_refl.
    set (s1 := with_sm s (mset (sm s) (fst b) (snd b))).
    assert (Hbx : forall x, in_range x (fst b) L -> sm s1 x = m0 x).
    { intros x Hx. cbn. rewrite mset_in by (rewrite Lb; exact Hx).
      pose proof (HO b (or_introl eq_refl)) as H. apply mread_spec in H. destruct H as [_ D].
      rewrite D; [reflexivity|]. exact Hx. }
    inversion ND as [|? ? N1 N2]; subst.
    destruct (IH (fun x => if (fst b <=? x) && (x <? fst b + L) then m0 x else mp x) 0 s1) as (s' & rv & E & R1 & R2).
    + exact Hs.
    + exact N2.
    + intros c Hc. apply HW. right; auto.
    + intros c Hc. apply HO. right; auto.
    + intros c x Hc Hx. cbn. unfold mset. destruct (_ && _); [discriminate|].
      apply (HM c x); [right; auto|auto].
    + intros x Hx. cbn beta. destruct ((fst b <=? x) && (x <? fst b + L)) eqn:E1.
      * apply Hbx. unfold in_range. lia.
      * cbn. rewrite mset_out by (rewrite Lb; unfold in_range; lia). apply HX.
        intros c [<-|Hc]; [unfold in_range; lia|]. apply Hx. auto.
    + exists s', rv. split; [exact E|]. split.
      * intros c x [<-|Hc] Hx; [|eapply R1; eauto].
        rewrite R2.
        -- replace ((fst b <=? x) && (x <? fst b + L)) with true by (unfold in_range in Hx; lia). reflexivity.
        -- intros c Hc Hcx. destruct (HW b (or_introl eq_refl)) as [T1 T2].
           destruct (HW c (or_intror Hc)) as [T3 T4].
           destruct (Z.eq_dec (fst b) (fst c)) as [Q|Q].
           ++ apply N1. rewrite Q. apply in_map. auto.
           ++ destruct (apart _ _ T1 T3 T2 T4 Q); unfold in_range, L in *; lia.
      * intros x Hx. rewrite R2.
        -- assert (N : ~ in_range x (fst b) L) by (apply Hx; left; auto).
           replace ((fst b <=? x) && (x <? fst b + L)) with false by (unfold in_range in N; lia). reflexivity.
        -- intros c Hc. apply Hx. right; auto.
Qed.
End B.

Lemma pair_let {A B C} (p : A * B) (f : A -> B -> C) : (let '(a, b) := p in f a b) = f (fst p) (snd p).
Proof. destruct p; reflexivity. Qed.

Theorem breakpoints_removed brk w ts timeout s rv ts' s' :
  targets_apart (zlen brk) (map t_until ts) ->
  Forall fails_clean (so s) ->
  so (snd (install brk (map t_until ts) [] s)) = [] ->
  (forall m x, at_target (zlen brk) (map t_until ts) x -> rw_patient w m x = m x) ->
  execute_until brk w ts timeout s = (Ret (rv, ts'), s') ->
  forall x, (forall m, rw_patient w m x = m x) -> sm s' x = sm s x.
Proof.
  intros HA HF HO HP HE x Hx. unfold execute_until in HE.
  destruct (_ =? 0); [injection HE as _ _ <-; reflexivity|].
  destruct (negb (rw_calloc w)); [injection HE as _ _ <-; reflexivity|].
  unfold bind in HE.
  assert (I0 : inv brk (map t_until ts) (sm s) [] (sm s)).
  { constructor.
    - intros ? [].
    - constructor.
    - intros ? [].
    - intros ? ? [].
    - auto. }
  pose proof (install_inv brk (map t_until ts) HA (sm s) (map t_until ts) [] s (incl_refl _) I0 HF) as HI.
  destruct (install brk (map t_until ts) [] s) as [[[bk c]| | | |] s1] eqn:EI; try contradiction; try discriminate.
  cbn [snd] in HO.
  destruct (if c && rw_sigmask w then _ else _) as [[ts1 en] ret1].
  unfold ret in HE.
  destruct (restore_spec brk (map t_until ts) HA (sm s) (rw_patient w (sm s1)) bk ret1
              (with_sm s1 (rw_patient w (sm s1))) HO
              (i_nodup _ _ _ _ _ HI) (i_want _ _ _ _ _ HI) (i_orig _ _ _ _ _ HI))
    as (s2 & rv2 & E & R1 & R2).
  { intros b y Hb Hy. cbn. rewrite HP.
    - eapply (i_in _ _ _ _ _ HI); eauto.
    - destruct (i_want _ _ _ _ _ HI b Hb). exists (fst b). auto. }
  { intros y _. reflexivity. }
  rewrite E in HE. injection HE as _ _ <-.
  assert (D : (exists b, In b bk /\ in_range x (fst b) (zlen brk)) \/
              (forall b, In b bk -> ~ in_range x (fst b) (zlen brk))).
  { clear. induction bk as [|b r IH]; [right; intros ? []|].
    assert (D : in_range x (fst b) (zlen brk) \/ ~ in_range x (fst b) (zlen brk)) by (unfold in_range; lia).
    destruct D as [D|D]; [left; exists b; split; [left|]; auto|].
    destruct IH as [(c & Hc & H)|IH]; [left; exists c; split; [right|]; auto|].
    right. intros c [<-|Hc]; auto. }
  destruct D as [(b & Hb & D)|D]; [eapply R1; eauto|].
  rewrite R2 by auto. rewrite Hx. apply (i_out _ _ _ _ _ HI); auto.
Qed.

(** ** The threads afterwards *)
Definition mv (t : thr) : Prop := t_moving t = true -> t_running t = true.

Lemma on_pid_mv pid f ts : (forall t, mv t -> mv (f t)) -> Forall mv ts -> Forall mv (on_pid pid f ts).
Proof.
  intros Hf H. unfold on_pid. induction H; cbn; constructor; auto. destruct (_ =? _); auto.
Qed.

Lemma find_on_pid pid f ts t : (forall t, t_pid (f t) = t_pid t) ->
  find (fun t => t_pid t =? pid) ts = Some t -> find (fun t => t_pid t =? pid) (on_pid pid f ts) = Some (f t).
Proof.
  intros Hf. unfold on_pid. induction ts as [|a r IH]; cbn; [discriminate|].
  destruct (t_pid a =? pid) eqn:E.
  - rewrite Hf, E. intros H. injection H as <-. reflexivity.
  - rewrite E. auto.
Qed.

Lemma waitpid_mv brk e ts : event_fine (zlen brk) ts e -> Forall mv ts ->
  forall rv ts' en, arch_waitpid brk e ts = (rv, ts', en) ->
  Forall mv ts' /\ (en = None \/ exists q, en = Some q /\ q <> esrch /\ q <> echild).
Proof.
  intros HE HM rv ts' en H. destruct e as [|q|b|pid|pid sig pc gr sr]; cbn in H, HE.
  - injection H as <- <- <-. auto.
  - injection H as <- <- <-. split; auto. right. exists q. tauto.
  - destruct b; [|contradiction]. injection H as <- <- <-. auto.
  - injection H as <- <- <-. split; auto. apply on_pid_mv; auto. intros t Ht. intros C. discriminate.
  - destruct HE as (-> & -> & t & Hf & Hu & Hpc). cbn in H.
    rewrite (find_on_pid pid _ ts t) in H by (auto || (intros; reflexivity)).
    cbn [t_until stopped_at] in H.
    replace (t_until t =? 0) with false in H by lia.
    replace (pc =? u64 (t_until t + Z.of_nat (length brk))) with true in H
      by (unfold u64; fold (zlen brk); symmetry; apply Z.eqb_eq; exact Hpc).
    cbn in H. injection H as <- <- <-. split; auto.
    apply on_pid_mv; [intros a Ha; exact Ha|].
    assert (G : forall l, on_pid pid (set_running false) (on_pid pid (stopped_at pc sig) l)
                = on_pid pid (fun t => set_running false (stopped_at pc sig t)) l).
    { clear. intros l. unfold on_pid. rewrite map_map. apply map_ext. intros t.
      destruct (t_pid t =? pid) eqn:E; cbn; rewrite E; reflexivity. }
    rewrite G. apply on_pid_mv; auto. intros a _ C. discriminate.
Qed.

Lemma waitpid_until brk e ts rv ts' en : arch_waitpid brk e ts = (rv, ts', en) -> rv = 1 \/ rv = 0 \/ rv < 0.
Proof.
  destruct e as [|q|b|pid|pid sig pc gr sr]; cbn; intros H; try (injection H as <- <- <-; lia).
  - destruct b; injection H as <- <- <-; lia.
  - destruct gr; cbn in H; [|injection H as <- <- <-; lia].
    destruct (find _ _); [|injection H as <- <- <-; lia].
    destruct (_ && _); [destruct sr|]; injection H as <- <- <-; lia.
Qed.

Lemma wait_loop_mv brk : forall evs ts a b c en, Forall mv ts -> en <> esrch -> en <> echild ->
  events_fine brk evs ts ->
  let '(ts', en') := wait_loop brk evs ts a b c en in
  Forall mv ts' /\ en' <> esrch /\ en' <> echild.
Proof.
  induction evs as [|[e dt] r IH]; intros ts a b c en HM H1 H2 HE; cbn [wait_loop].
  - destruct (_ || _); auto.
  - destruct (_ || _); auto. destruct HE as [HE HR].
    destruct (arch_waitpid brk e ts) as [[rv ts1] en1] eqn:EA.
    destruct (waitpid_mv brk e ts HE HM _ _ _ EA) as [HM1 HEN]. cbn [fst snd] in HR.
    set (en2 := match en1 with Some x => x | None => en end).
    assert (Hen : en2 <> esrch /\ en2 <> echild).
    { unfold en2. destruct HEN as [->|(q & -> & Q1 & Q2)]; auto. }
    destruct (rv <? 0); [tauto|]. destruct (rv =? 1); apply IH; tauto.
Qed.

Lemma resume_mv : forall ts ok, (forall b, In b ok -> b = true) -> Forall mv ts ->
  let '(ts', n, b) := resume ok ts in Forall mv ts' /\ b = true.
Proof.
  induction ts as [|t r IH]; intros ok Hok HM; cbn [resume]; auto.
  inversion HM; subst.
  destruct (t_until t =? 0).
  - specialize (IH ok Hok H2). destruct (resume ok r) as [[r' n] b]. destruct IH. split; auto.
  - assert (Ht : hd true ok = true) by (destruct ok; cbn; auto; apply Hok; left; auto).
    rewrite Ht. assert (Hok' : forall b, In b (tl ok) -> b = true)
      by (intros b Hb; apply Hok; destruct ok; [destruct Hb|right; auto]).
    specialize (IH (tl ok) Hok' H2).
    destruct (resume (tl ok) r) as [[r' n] b]. destruct IH. split; auto. constructor; auto. intros _. reflexivity.
Qed.

Lemma stop_all_stopped ans : (forall p, ans p <> SChild) -> forall ts en, en <> esrch -> en <> echild ->
  Forall mv ts -> Forall (fun t => t_moving t = false /\ t_running t = false) (stop_all ans ts en).
Proof.
  intros HA. induction ts as [|t r IH]; intros en H1 H2 HM; cbn [stop_all]; auto.
  inversion HM as [|? ? Ht Hr]; subst.
  destruct (t_running t) eqn:ER; cbn [negb].
  - replace ((en =? esrch) || (en =? echild)) with false by lia.
    destruct (ans (t_pid t)) eqn:EA; [| |exfalso; eapply HA; eauto]; constructor; auto.
  - constructor; auto. split; auto. destruct (t_moving t) eqn:EM; auto.
    rewrite (Ht EM) in ER. discriminate.
Qed.

Theorem threads_stopped brk w ts timeout s rv ts' s' :
  Forall (fun t => t_moving t = false /\ t_running t = false) ts ->
  (forall b, In b (rw_cont w) -> b = true) ->
  (forall p, rw_stop w p <> SChild) ->
  events_fine brk (rw_events w) (fst (fst (resume (rw_cont w) ts))) ->
  execute_until brk w ts timeout s = (Ret (rv, ts'), s') ->
  Forall (fun t => t_moving t = false /\ t_running t = false) ts'.
Proof.
  intros H0 HC HS HE HX.
  assert (M0 : Forall mv ts) by (eapply Forall_impl; [|exact H0]; intros t [Q _] Q2; congruence).
  unfold execute_until in HX.
  destruct (_ =? 0); [injection HX as _ <- _; auto|].
  destruct (negb (rw_calloc w)); [injection HX as _ <- _; auto|].
  unfold bind in HX.
  destruct (install brk (map t_until ts) [] s) as [[[bk c]| | | |] s1]; try discriminate.
  assert (G : let '(ts1, en, r1) :=
      (if c && rw_sigmask w
       then let '(ts1, running, ok) := resume (rw_cont w) ts in
            if ok then let '(ts2, en) := wait_loop brk (rw_events w) ts1 running
                         (zlen (filter (fun t => negb (t_until t =? 0)) ts)) timeout 0 in (ts2, en, 0)
            else (ts1, esrch, -1)
       else (ts, 0, if c then 0 else -1)) in
      Forall mv ts1 /\ en <> esrch /\ en <> echild).
  { destruct (c && rw_sigmask w); [|repeat split; auto; discriminate].
    pose proof (resume_mv ts (rw_cont w) HC M0) as HR.
    destruct (resume (rw_cont w) ts) as [[ts1 n] b]. destruct HR as [HM ->].
    cbn [fst snd] in HE.
    pose proof (wait_loop_mv brk (rw_events w) ts1 n (zlen (filter (fun t => negb (t_until t =? 0)) ts))
                  timeout 0 HM ltac:(discriminate) ltac:(discriminate) HE) as HW.
    destruct (wait_loop _ _ _ _ _ _ _) as [ts2 en]. exact HW. }
  destruct (if c && rw_sigmask w then _ else _) as [[ts1 en] r1].
  destruct G as (G1 & G2 & G3).
  unfold ret in HX.
  destruct (restore bk r1 _) as [[q| | | |] s2]; try discriminate.
  injection HX as _ <- _.
  pose proof (stop_all_stopped (rw_stop w) HS ts1 en G2 G3 G1) as HF.
  induction HF; cbn; constructor; auto. destruct (existsb _ _); auto.
Qed.

(** ** Remote execution *)
Section R.
Variable regs : Type.
Variable enter : regs -> regs -> regs.
Variable func : mem -> regs -> bool * mem * regs.
Variable base : Z.
Variable code : list Z.
Hypothesis func_scratch : forall m r x, in_range x base (zlen code) -> snd (fst (func m r)) x = m x.

Lemma getset_sm s : match getset s with (Ret _, s') | (Die, s') => sm s' = sm s | _ => False end.
Proof.
  unfold getset, choice. pose proof (pop_sm s) as E. destruct (pop s) as [[| |] s']; cbn in *; auto.
Qed.

Definition kept (m0 : mem) (m : mem) : Prop :=
  (forall x, in_range x base (zlen code) -> m x <> None) /\
  (forall x, ~ in_range x base (zlen code) -> (forall m r, snd (fst (func m r)) x = m x) -> m x = m0 x).

Lemma front_post pregs r0 s :
  match execute_front regs enter func base code pregs r0 s with
  | (Ret (rv, r, p, Some orig), s') =>
      mread (sm s) base (length code) = Some orig /\ kept (sm s) (sm s') /\ (rv = 0 -> r = r0) /\ (rv = 0 \/ rv = -1)
  | (Ret (rv, r, p, None), s') => sm s' = sm s /\ r = r0 /\ rv = -1
  | (Die, _) => True
  | _ => False
  end.
Proof.
  unfold execute_front, bind, ret.
  pose proof (getset_sm s) as G. destruct (getset s) as [[ok| | | |] s0]; try contradiction; auto.
  destruct ok; cbn [negb]; [|auto].
  pose proof (read_sm base (length code) s0) as RS. pose proof (read_ret base (length code) s0) as RR.
  destruct (mem_read base (length code) s0) as [[orig| | | |] s1] eqn:EM; cbn [snd] in RS; auto.
  2: { split; [congruence|auto]. }
  2: { unfold mem_read in EM. destruct (pop s0) as [[| |] q]; [destruct (mread (sm q) base (length code))| |]; discriminate. }
  2: { unfold mem_read in EM. destruct (pop s0) as [[| |] q]; [destruct (mread (sm q) base (length code))| |]; discriminate. }
  specialize (RR orig s1 eq_refl). rewrite G in RR.
  assert (Emap : forall x, in_range x base (zlen code) -> sm s1 x <> None).
  { intros x Hx. rewrite RS, G. pose proof RR as Q. apply mread_spec in Q. destruct Q as [_ D].
    rewrite D; [discriminate|exact Hx]. }
  pose proof (mem_write_post base code s1) as W.
  assert (K1 : forall k (m : mem), (forall x, m x = mset (sm s1) base (firstn k code) x) -> kept (sm s) m).
  { intros k m Hm.
    assert (Hl : zlen (firstn k code) <= zlen code) by (unfold zlen; rewrite firstn_length; lia).
    split.
    - intros x Hx. rewrite Hm. unfold mset. destruct (_ && _); [discriminate|]. auto.
    - intros x Hx _. rewrite Hm, mset_out by (unfold in_range in *; lia). congruence. }
  destruct (mem_write base code s1) as [[u| | | |] s2]; try contradiction; auto; unfold wpost in W.
  2: { destruct W as [k W]. split; [auto|]. split; [apply (K1 k); auto|]. split; [discriminate|auto]. }
  assert (K2 : kept (sm s) (sm s2)).
  { apply (K1 (length code)). intros x. rewrite firstn_all. apply W. }
  pose proof (getset_sm s2) as G2. destruct (getset s2) as [[ok| | | |] s3]; try contradiction; auto.
  rewrite <- G2 in K2.
  destruct ok; cbn [negb].
  2: { split; [auto|]. split; [auto|]. split; [discriminate|auto]. }
  destruct (func (sm s3) (enter pregs r0)) as [[fok m] r1] eqn:EF.
  assert (K3 : kept (sm s) m).
  { assert (Em : m = snd (fst (func (sm s3) (enter pregs r0)))) by (rewrite EF; reflexivity).
    destruct K2 as [A B]. split.
    - intros x Hx. rewrite Em, func_scratch by auto. auto.
    - intros x Hx Hf. rewrite Em, Hf. auto. }
  destruct fok; cbn [negb].
  2: { split; [auto|]. split; [auto|]. split; [discriminate|auto]. }
  pose proof (getset_sm (with_sm s3 m)) as G3. destruct (getset (with_sm s3 m)) as [[ok| | | |] s4]; try contradiction; auto.
  cbn in G3. destruct ok; cbn [negb].
  2: { rewrite <- G3 in K3. split; [auto|]. split; [auto|]. split; [discriminate|auto]. }
  pose proof (getset_sm s4) as G4. destruct (getset s4) as [[ok| | | |] s5]; try contradiction; auto.
  rewrite <- G3, <- G4 in K3.
  destruct ok; cbn [negb]; (split; [auto|]; split; [auto|]; split; auto; discriminate).
Qed.

Theorem remote_restores pregs r0 s rv r p s' :
  so (snd (execute_front regs enter func base code pregs r0 s)) = [] ->
  execute_remote regs enter func base code pregs r0 s = (Ret (rv, r, p), s') ->
  (forall x, in_range x base (zlen code) \/ (forall m r, snd (fst (func m r)) x = m x) -> sm s' x = sm s x) /\
  (rv = 0 -> r = r0).
Proof.
  intros HO HE. unfold execute_remote, bind in HE.
  pose proof (front_post pregs r0 s) as F.
  destruct (execute_front regs enter func base code pregs r0 s) as [[[[[rv1 r1] p1] orig]| | | |] s1]; try discriminate.
  cbn [snd] in HO. unfold execute_back in HE. destruct orig as [orig|].
  - destruct F as (FR & [K1 K2] & F2 & _).
    assert (Lo : zlen orig = zlen code) by (apply mread_length in FR; unfold zlen; lia).
    unfold mem_write, pop in HE. rewrite HO in HE.
    rewrite pwrite_full in HE by (intros x Hx; rewrite Lo in Hx; auto).
    rewrite Nat.eqb_refl in HE. unfold ret in HE. injection HE as <- <- <- <-.
    split; auto. intros x Hx. cbn.
    assert (D : in_range x base (zlen code) \/ ~ in_range x base (zlen code)) by (unfold in_range; lia).
    destruct D as [D|D].
    + rewrite mset_in by (rewrite Lo; auto). apply mread_spec in FR. destruct FR as [_ FR].
      rewrite FR; auto.
    + rewrite mset_out by (rewrite Lo; auto). destruct Hx as [Hx|Hx]; [contradiction|]. apply K2; auto.
  - unfold ret in HE. injection HE as <- <- <- <-. destruct F as (F1 & F2 & F3). rewrite F1. split; auto.
Qed.
End R.

(** ** Signals passed on *)
Lemma wait_for_stop_signals : forall evs status sent,
  wait_for_stop evs status = (Some 0, sent) ->
  exists pre last rest, evs = pre ++ last :: rest /\
    (snd last = Stopped sigstop \/ snd last = Stopped sigtrap) /\
    (forall e, In e pre -> snd e <> WaitErr /\ snd e <> Stopped sigstop /\ snd e <> Stopped sigtrap) /\
    sent = status :: map (fun e => sig_of (snd e)) pre.
Proof.
  induction evs as [|[c w] r IH]; intros status sent H; cbn in H; [discriminate|].
  destruct c; cbn in H; [|discriminate].
  destruct w as [sig|sig| |].
  - destruct ((sig =? sigstop) || (sig =? sigtrap)) eqn:E.
    + injection H as <-. exists [], (true, Stopped sig), r. split; auto. split.
      * cbn. destruct (Z.eqb_spec sig sigstop); [left; congruence|right; f_equal; lia].
      * split; [intros ? []|reflexivity].
    + destruct (wait_for_stop r sig) as [res sent'] eqn:EW. injection H as -> <-.
      destruct (IH _ _ EW) as (pre & last & rest & -> & H1 & H2 & ->).
      exists ((true, Stopped sig) :: pre), last, rest. split; auto. split; auto. split; auto.
      intros e [<-|He]; auto. cbn. repeat split; try discriminate; intros Q; injection Q as ->; discriminate.
  - destruct (wait_for_stop r sig) as [res sent'] eqn:EW. injection H as -> <-.
    destruct (IH _ _ EW) as (pre & last & rest & -> & H1 & H2 & ->).
    exists ((true, Signaled sig) :: pre), last, rest. split; auto. split; auto. split; auto.
    intros e [<-|He]; auto. cbn. repeat split; discriminate.
  - destruct (wait_for_stop r 0) as [res sent'] eqn:EW. injection H as -> <-.
    destruct (IH _ _ EW) as (pre & last & rest & -> & H1 & H2 & ->).
    exists ((true, Exited) :: pre), last, rest. split; auto. split; auto. split; auto.
    intros e [<-|He]; auto. cbn. repeat split; discriminate.
  - discriminate.
Qed.

Lemma attach_wait_signals : forall evs sent,
  attach_wait evs = (Some 0, sent) ->
  exists pre last rest, evs = pre ++ last :: rest /\ fst last = Stopped sigstop /\
    (forall e, In e pre -> fst e <> WaitErr /\ fst e <> Stopped sigstop) /\
    sent = map (fun e => if (match fst e with Stopped s => s =? sigtrap | _ => false end) then 0 else sig_of (fst e)) pre.
Proof.
  induction evs as [|[w c] r IH]; intros sent H; cbn in H; [discriminate|].
  destruct w as [sig|sig| |].
  - destruct (sig =? sigstop) eqn:E.
    + injection H as <-. exists [], (Stopped sig, c), r. split; auto. cbn. split; [f_equal; lia|].
      split; [intros ? []|reflexivity].
    + destruct c; cbn in H; [|discriminate].
      destruct (attach_wait r) as [res sent'] eqn:EW. injection H as -> <-.
      destruct (IH _ eq_refl) as (pre & last & rest & -> & H1 & H2 & ->).
      exists ((Stopped sig, true) :: pre), last, rest. split; auto. split; auto. split; auto.
      intros e [<-|He]; auto. cbn. repeat split; try discriminate; intros Q; injection Q as ->; discriminate.
  - destruct c; cbn in H; [|discriminate].
    destruct (attach_wait r) as [res sent'] eqn:EW. injection H as -> <-.
    destruct (IH _ eq_refl) as (pre & last & rest & -> & H1 & H2 & ->).
    exists ((Signaled sig, true) :: pre), last, rest. split; auto. split; auto. split; auto.
    intros e [<-|He]; auto. cbn. repeat split; discriminate.
  - destruct c; cbn in H; [|discriminate].
    destruct (attach_wait r) as [res sent'] eqn:EW. injection H as -> <-.
    destruct (IH _ eq_refl) as (pre & last & rest & -> & H1 & H2 & ->).
    exists ((Exited, true) :: pre), last, rest. split; auto. split; auto. split; auto.
    intros e [<-|He]; auto. cbn. repeat split; discriminate.
  - discriminate.
Qed.

(** ** Attaching *)
Section A.
Variable env : nat -> pworld -> pworld.
Hypothesis env_ok : forall c w, world_fine w -> env_step w (env c w).

Lemma existsb_eqb t l : existsb (Z.eqb t) l = true <-> In t l.
Proof.
  rewrite existsb_exists. split.
  - intros (x & Hx & E). apply Z.eqb_eq in E. subst; auto.
  - intros H. exists t. split; auto. apply Z.eqb_refl.
Qed.

Lemma step_fine w w' : world_fine w -> env_step w w' -> world_fine w'.
Proof.
  intros [F1 F2] (E1 & gone & new & G1 & G2 & G3 & G4 & G5). split.
  - intros t Ht. rewrite G5. rewrite G2 in Ht. apply in_app_or in Ht. apply in_or_app.
    destruct Ht as [Ht|Ht]; [right; apply F1; apply filter_In in Ht; tauto|auto].
  - intros t Ht. rewrite E1 in Ht. rewrite G2. apply in_or_app. left. apply filter_In. split; auto.
    destruct (existsb (Z.eqb t) gone) eqn:E; auto. apply existsb_eqb in E. exfalso. eapply G1; eauto.
Qed.

(** The listing [P] seen from a later world. *)
Record seen (P : list Z) (w : pworld) : Prop := {
  se_fine : world_fine w;
  se_used : forall t, In t P -> In t (used w);
  se_live : exists f extra, live w = filter f P ++ extra /\ (forall t, In t extra -> ~ In t P) }.

Lemma filter_filter {A} (f g : A -> bool) l : filter f (filter g l) = filter (fun x => g x && f x) l.
Proof.
  induction l as [|a r IH]; cbn; auto. destruct (g a); cbn; [|exact IH].
  destruct (f a); cbn; rewrite IH; reflexivity.
Qed.

Lemma seen_step P w w' : seen P w -> env_step w w' -> seen P w'.
Proof.
  intros [F U (f & extra & L & X)] S. pose proof (step_fine _ _ F S) as F'.
  destruct S as (E1 & gone & new & G1 & G2 & G3 & G4 & G5). constructor; auto.
  - intros t Ht. rewrite G5. apply in_or_app; right; auto.
  - eexists _, _. split.
    + rewrite G2, L, filter_app, filter_filter, <- app_assoc. reflexivity.
    + intros t Ht Hp. apply in_app_or in Ht. destruct Ht as [Ht|Ht].
      * apply filter_In in Ht. eapply X; [apply Ht|exact Hp].
      * apply (G3 t Ht). auto.
Qed.

Lemma seen_self w : world_fine w -> seen (live w) w.
Proof.
  intros F. constructor; auto; [apply F|].
  exists (fun _ => true), []. split; [|intros ? []].
  rewrite app_nil_r. induction (live w) as [|a r IH]; cbn; congruence.
Qed.

Lemma attach_new_post P : forall pids c w w' c', incl pids P -> seen P w ->
  attach_new env pids c w = (true, c', w') ->
  seen P w' /\ incl (held w) (held w') /\ incl pids (held w').
Proof.
  induction pids as [|t r IH]; intros c w w' c' Hi S H; cbn [attach_new] in H.
  - injection H as _ <-. split; auto. split; [apply incl_refl|intros ? []].
  - assert (Hr : incl r P) by (intros x Hx; apply Hi; right; auto).
    destruct (existsb (Z.eqb t) (held w)) eqn:E.
    + pose proof (env_ok c w (se_fine _ _ S)) as ST.
      destruct (IH _ _ _ _ Hr (seen_step _ _ _ S ST) H) as (A & B & C).
      destruct ST as (EH & _). rewrite EH in B. split; auto. split; auto.
      intros x [<-|Hx]; auto. apply B. apply existsb_eqb; auto.
    + unfold attach_one in H. destruct (existsb (Z.eqb t) (live w)) eqn:EL; [|discriminate].
      set (w1 := {| live := live w; held := t :: held w; used := used w |}) in *.
      assert (S1 : seen P w1).
      { destruct S as [[F1 F2] U LV]. constructor; auto. split; auto.
        cbn. intros x [<-|Hx]; auto. apply existsb_eqb; auto. }
      pose proof (env_ok c w1 (se_fine _ _ S1)) as ST.
      destruct (IH _ _ _ _ Hr (seen_step _ _ _ S1 ST) H) as (A & B & C).
      destruct ST as (EH & _). rewrite EH in B. split; auto. split.
      * intros x Hx. apply B. right; auto.
      * intros x [<-|Hx]; auto. apply B. left; auto.
Qed.

Lemma filter_all {A} (f : A -> bool) l : (forall x, In x l -> In x (filter f l)) -> filter f l = l.
Proof.
  intros H. assert (G : forall x, In x l -> f x = true) by (intros x Hx; specialize (H x Hx); apply filter_In in H; tauto).
  clear H. induction l as [|a r IH]; cbn; auto. rewrite G by (left; auto). f_equal. apply IH. intros x Hx. apply G. right; auto.
Qed.

Lemma seen_held P w : seen P w -> incl P (held w) -> exists extra, live w = P ++ extra.
Proof.
  intros [[F1 F2] U (f & extra & L & X)] H. exists extra. rewrite L. f_equal. apply filter_all.
  intros t Ht. specialize (F2 t (H t Ht)). rewrite L in F2. apply in_app_or in F2.
  destruct F2 as [Q|Q]; auto. exfalso. eapply X; eauto.
Qed.

Lemma attempts_post : forall n first prev c w w', world_fine w ->
  (exists l extra, length l = prev /\ live w = l ++ extra /\ incl l (held w)) ->
  attach_attempts env n first prev c w = (true, w') ->
  world_fine w' /\ incl (live w') (held w').
Proof.
  induction n as [|n IH]; intros first prev c w w' F (l & extra & HL & HV & HI) H; cbn [attach_attempts] in H; [discriminate|].
  destruct (negb first && Nat.eqb prev (length (live w))) eqn:E.
  - injection H as <-. split; auto. rewrite HV in *. rewrite app_length in E.
    destruct extra as [|e r]; [rewrite app_nil_r; auto|].
    cbn [length] in E. apply andb_prop in E. destruct E as [_ E]. apply Nat.eqb_eq in E. lia.
  - pose proof (env_ok c w F) as ST.
    destruct (attach_new env (skipn prev (live w)) (S c) (env c w)) as [[ok c'] w1] eqn:EA.
    destruct ok; [|discriminate].
    assert (SK : skipn prev (live w) = extra).
    { rewrite HV, <- HL, skipn_app, skipn_all, Nat.sub_diag. reflexivity. }
    assert (Hinc : incl (skipn prev (live w)) (live w)).
    { rewrite SK, HV. intros x Hx. apply in_or_app; auto. }
    destruct (attach_new_post (live w) _ _ _ _ _ Hinc (seen_step _ _ _ (seen_self w F) ST) EA) as (A & B & C).
    assert (HH : incl (live w) (held w1)).
    { rewrite HV. rewrite SK in C. intros x Hx. apply in_app_or in Hx. destruct Hx as [Hx|Hx]; auto.
      apply B. destruct ST as (-> & _). auto. }
    destruct (seen_held _ _ A HH) as [ex2 Hex].
    eapply (IH false (length (live w)) c' w1 w'); [apply (se_fine _ _ A)|exists (live w), ex2; auto|exact H].
Qed.

Theorem attach_holds_all w w' : world_fine w -> process_attach env w = (true, w') ->
  incl (live w') (held w') /\
  forall w'', env_step w' w'' -> incl (live w'') (held w'').
Proof.
  intros F H. unfold process_attach in H.
  assert (G : world_fine w' /\ incl (live w') (held w')).
  { eapply (attempts_post 3); [exact F| |exact H]. exists [], (live w). repeat split; auto. intros ? []. }
  destruct G as [F' G]. split; auto.
  intros w'' (E & gone & new & G1 & G2 & G3 & G4 & G5). rewrite (G4 G) in G2. rewrite G2, app_nil_r, E.
  intros t Ht. apply filter_In in Ht. apply G. tauto.
Qed.
End A.
