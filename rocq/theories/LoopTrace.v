From Coq Require Import String.
From Verif Require Import Base BaseProofs StorageModel ServModel ServSpec CliModel CliSpec CliProofs LoopModel LoopSpec LoopProofs.
Open Scope list_scope.

Section Trace.
Variable lim : nat.
Variable sfd : Z.
Variable t0 : fdt.
Hypothesis ST : started lim sfd t0.

Definition no_accept (tr : list event) : Prop := forall n, ~ In (EAccept n) tr.
Lemma no_accept_app a b : no_accept a -> no_accept b -> no_accept (a ++ b).
Proof. intros A B n I. apply in_app_iff in I. destruct I; [eapply A|eapply B]; eassumption. Qed.
Lemma prints_no_accept a b ps : no_accept (prints_to a b ps).
Proof.
  intros n I. unfold prints_to in I. apply in_flat_map in I. destruct I as ([e bs] & _ & I). cbn [snd] in I.
  destruct bs; [destruct I|]. destruct I as [I|[]]. discriminate.
Qed.
Lemma end_child_no_accept s : no_accept (end_child s).
Proof. unfold end_child. intros n I. destruct (s_child s =? 0); cbn in I; intuition discriminate. Qed.
Lemma writes_no_accept o bs : no_accept (writes_to o bs).
Proof. intros n I. destruct bs; cbn in I; intuition discriminate. Qed.
Lemma exec_no_accept s n fd c argv ev r d ch : exec_does t0 s n fd c argv ev r d ch -> no_accept ev.
Proof.
  destruct 1; try apply writes_no_accept; try (apply no_accept_app; [apply end_child_no_accept|]); try apply end_child_no_accept;
    intros m I; cbn [In] in I; repeat (destruct I as [I|I]; [discriminate|]); try contradiction; exact (prints_no_accept _ _ _ _ I).
Qed.
Lemma conn_no_accept s n fd c ev h d ch : conn_does t0 s n fd c ev h d ch -> no_accept ev.
Proof.
  destruct 1; try (intros m I; cbn in I; intuition discriminate).
  - apply no_accept_app; [eapply exec_no_accept; eassumption|]. intros m I. cbn in I. intuition discriminate.
  - eapply exec_no_accept; eassumption.
Qed.

Lemma until_app a b : no_accept a -> until (a ++ b) = a ++ until b.
Proof.
  induction a as [|e a IH]; intros H; [reflexivity|]. cbn [app until]. rewrite IH by (intros n I; apply (H n); right; exact I).
  destruct e; try reflexivity. exfalso. apply (H n). left. reflexivity.
Qed.
Lemma until_none a : no_accept a -> until a = a.
Proof. intros H. rewrite <- (app_nil_r a) at 1. rewrite until_app by exact H. cbn. apply app_nil_r. Qed.
Lemma during_app n a b : no_accept a -> during n (a ++ b) = during n b.
Proof.
  induction a as [|e a IH]; intros H; [reflexivity|]. cbn [app during]. rewrite IH by (intros k I; apply (H k); right; exact I).
  destruct e; try reflexivity. exfalso. apply (H n0). left. reflexivity.
Qed.

Definition tidy (tl : list event) : Prop := forall e, In e tl -> exists p, e = ESignal p \/ e = EWait p.
Lemma end_child_tidy s : tidy (end_child s).
Proof. unfold end_child. intros e I. destruct (s_child s =? 0); cbn in I; [destruct I|]. destruct I as [<-|[<-|[]]]; eauto. Qed.
Lemma runs_until l s s3 tr f : runs t0 l s s3 tr f -> exists tl, until tr = tl /\ tidy tl.
Proof.
  intros R. eexists. split; [reflexivity|]. destruct R; cbn [until].
  - intros e [].
  - rewrite until_none by apply end_child_no_accept. apply end_child_tidy.
  - rewrite until_none by apply end_child_no_accept. apply end_child_tidy.
  - intros e [].
  - intros e [].
  - intros e [].
Qed.

Lemma exec_dir s n fd c cmd args ev r d ch : exec_does t0 s n fd c (cmd :: args) ev r d ch ->
  d = if list_eqb cmd (str "storage") then firstn 4095 (hd [] args) else s_dir s.
Proof.
  intros X. inversion X; subst; try reflexivity; try (destruct just; reflexivity).
  destruct (list_eqb cmd (str "storage")) eqn:E; [|reflexivity]. apply list_eqb_eq in E. subst cmd.
  exfalso. match goal with H : ~ In _ _ |- _ => apply H end. unfold quiet_cmds. cbn [In]. auto 10.
Qed.
Lemma conn_dir s n fd c ev h d ch : conn_does t0 s n fd c ev h d ch -> d = dir_after (s_dir s) [request (IConn c)].
Proof.
  intros X. destruct X as [E|[E|E]|E|argv ev rv d ch E X|argv ev d ch E X]; cbn [request]; rewrite E; cbn [dir_after]; try reflexivity.
  - destruct (executed_nonempty _ _ E) as (cmd & args & ->). exact (exec_dir _ _ _ _ _ _ _ _ _ _ X).
  - destruct (executed_nonempty _ _ E) as (cmd & args & ->). exact (exec_dir _ _ _ _ _ _ _ _ _ _ X).
Qed.
Lemma dir_after_cons d r rs : dir_after d (r :: rs) = dir_after (dir_after d [r]) rs.
Proof. destruct r as [[|cmd args]|]; reflexivity. Qed.

Lemma runs_accepts l s s3 tr f : runs t0 l s s3 tr f -> forall m, In (EAccept m) tr -> (s_n s <= m)%nat.
Proof.
  induction 1; intros m I; cbn [In] in I.
  - destruct I.
  - apply end_child_no_accept in I. destruct I.
  - apply end_child_no_accept in I. destruct I.
  - destruct I as [I|I]; [injection I; lia|]. exfalso. exact (conn_no_accept _ _ _ _ _ _ _ _ H2 _ I).
  - destruct I as [I|I]; [injection I; lia|]. apply in_app_iff in I. destruct I as [I|I].
    + exfalso. exact (conn_no_accept _ _ _ _ _ _ _ _ H2 _ I).
    + apply end_child_no_accept in I. destruct I.
  - destruct I as [I|I]; [injection I; lia|]. apply in_app_iff in I. destruct I as [I|I].
    + exfalso. exact (conn_no_accept _ _ _ _ _ _ _ _ H2 _ I).
    + specialize (IHruns _ I). lia.
Qed.

(** What is known of connection [k] of a run. *)
Lemma nth_conn l s s3 tr f : runs t0 l s s3 tr f -> forall k, In (EAccept (s_n s + k)%nat) tr ->
  exists c si fd ev h d ch tl, nth_error l k = Some (IConn c) /\ good t0 si /\ 0 <= fd <= 100 /\ t0 fd = None /\
    s_n si = (s_n s + k)%nat /\ s_dir si = dir_after (s_dir s) (map request (firstn k l)) /\
    conn_does t0 si (s_n s + k) fd c ev h d ch /\ during (s_n s + k) tr = ev ++ tl /\ tidy tl.
Proof.
  assert (FIRST : forall c r s fd ev h d ch (tl : list event), good t0 s -> 0 <= fd <= 100 -> t0 fd = None ->
    conn_does t0 s (s_n s) fd c ev h d ch -> (exists tl', until tl = tl' /\ tidy tl') ->
    exists c' si fd ev' h d ch tl', nth_error (IConn c :: r) 0 = Some (IConn c') /\ good t0 si /\ 0 <= fd <= 100 /\ t0 fd = None /\
      s_n si = (s_n s + 0)%nat /\ s_dir si = dir_after (s_dir s) (map request (firstn 0 (IConn c :: r))) /\
      conn_does t0 si (s_n s + 0) fd c' ev' h d ch /\ during (s_n s + 0) (EAccept (s_n s) :: ev ++ tl) = ev' ++ tl' /\ tidy tl').
  { intros c r si fd ev h d ch tl G B E X (tl' & U & T). exists c, si, fd, ev, h, d, ch, tl'. rewrite Nat.add_0_r.
    split; [reflexivity|]. split; [exact G|]. split; [exact B|]. split; [exact E|]. split; [reflexivity|]. split; [reflexivity|].
    split; [exact X|]. split; [|exact T]. cbn [during]. rewrite Nat.eqb_refl, until_app by (eapply conn_no_accept; exact X).
    rewrite U. reflexivity. }
  induction 1 as [s G|r s G|r s G|c r s s2 fd ev f G B E X|c r s s2 fd ev G B E X G2|c r s s2 s3 fd ev rv ev' f G B E X NS N R IH]; intros k I.
  - destruct I.
  - apply end_child_no_accept in I. destruct I.
  - apply end_child_no_accept in I. destruct I.
  - destruct I as [I|I]; [|exfalso; exact (conn_no_accept _ _ _ _ _ _ _ _ X _ I)].
    injection I as I. assert (k = 0%nat) by lia. subst k. rewrite <- (app_nil_r ev).
    eapply FIRST; [exact G|exact B|exact E|exact X|]. exists []. split; [reflexivity|intros e []].
  - destruct I as [I|I].
    + injection I as I. assert (k = 0%nat) by lia. subst k. eapply FIRST; [exact G|exact B|exact E|exact X|].
      eexists. split; [apply until_none, end_child_no_accept|apply end_child_tidy].
    + exfalso. apply in_app_iff in I. destruct I as [I|I]; [exact (conn_no_accept _ _ _ _ _ _ _ _ X _ I)|exact (end_child_no_accept _ _ I)].
  - destruct I as [I|I].
    + injection I as I. assert (k = 0%nat) by lia. subst k. eapply FIRST; [exact G|exact B|exact E|exact X|]. eapply runs_until. exact R.
    + apply in_app_iff in I. destruct I as [I|I]; [exfalso; exact (conn_no_accept _ _ _ _ _ _ _ _ X _ I)|].
      pose proof (runs_accepts _ _ _ _ _ R _ I) as L. destruct k as [|k]; [lia|].
      replace (s_n s + S k)%nat with (s_n s2 + k)%nat in * by lia.
      destruct (IH k I) as (c' & si & fd' & ev2 & h & d & ch & tl & Q1 & Q2 & Q3 & Q4 & Q5 & Q6 & Q7 & Q8 & Q9).
      exists c', si, fd', ev2, h, d, ch, tl. split; [exact Q1|]. split; [exact Q2|]. split; [exact Q3|]. split; [exact Q4|].
      split; [exact Q5|]. split.
      { rewrite Q6. cbn [firstn map]. rewrite dir_after_cons, <- (conn_dir _ _ _ _ _ _ _ _ X). reflexivity. }
      split; [exact Q7|]. split; [|exact Q9]. cbn [during].
      replace (Nat.eqb (s_n s) (s_n s2 + k)) with false by (symmetry; apply Nat.eqb_neq; lia).
      rewrite during_app by (eapply conn_no_accept; exact X). exact Q8.
Qed.

(** Every event belongs to a connection, or ends the child. *)
Lemma event_of l s s3 tr f : runs t0 l s s3 tr f -> forall e, In e tr ->
  (exists p, e = ESignal p \/ e = EWait p) \/ (exists m, e = EAccept m) \/ exists k, In (EAccept (s_n s + k)%nat) tr /\ In e (during (s_n s + k) tr).
Proof.
  induction 1 as [s G|r s G|r s G|c r s s2 fd ev f G B E X|c r s s2 fd ev G B E X G2|c r s s2 s3 fd ev rv ev' f G B E X NS N R IH]; intros e I.
  - destruct I.
  - left. apply (end_child_tidy s). exact I.
  - left. apply (end_child_tidy s). exact I.
  - destruct I as [<-|I]; [right; left; eauto|]. right. right. exists 0%nat. rewrite Nat.add_0_r. split; [left; reflexivity|].
    cbn [during]. rewrite Nat.eqb_refl, until_none by (eapply conn_no_accept; exact X). exact I.
  - destruct I as [<-|I]; [right; left; eauto|]. apply in_app_iff in I. destruct I as [I|I].
    + right. right. exists 0%nat. rewrite Nat.add_0_r. split; [left; reflexivity|].
      cbn [during]. rewrite Nat.eqb_refl, until_app by (eapply conn_no_accept; exact X). apply in_app_iff. left. exact I.
    + left. apply (end_child_tidy s2). exact I.
  - destruct I as [<-|I]; [right; left; eauto|]. apply in_app_iff in I. destruct I as [I|I].
    + right. right. exists 0%nat. rewrite Nat.add_0_r. split; [left; reflexivity|].
      cbn [during]. rewrite Nat.eqb_refl, until_app by (eapply conn_no_accept; exact X). apply in_app_iff. left. exact I.
    + destruct (IH e I) as [H|[H|(k & H1 & H2)]]; [left; exact H|right; left; exact H|]. right. right. exists (S k).
      replace (s_n s + S k)%nat with (s_n s2 + k)%nat by lia. split; [right; apply in_app_iff; right; exact H1|].
      cbn [during]. replace (Nat.eqb (s_n s) (s_n s2 + k)) with false by (symmetry; apply Nat.eqb_neq; lia).
      rewrite during_app by (eapply conn_no_accept; exact X). exact H2.
Qed.

(** ** The child *)
Definition owns (L : list Z) (ch : Z) : Prop := L = [] \/ (L = [ch] /\ ch <> 0).
Definition bounded (L : list Z) (tr : list event) : Prop := forall a b, tr = a ++ b -> (length (children_from L a) <= 1)%nat.
Lemma children_app a b : forall L, children_from L (a ++ b) = children_from (children_from L a) b.
Proof. induction a as [|e a IH]; intros L; [reflexivity|]. cbn [app children_from]. destruct e; apply IH. Qed.
Lemma bounded_app L x y : bounded L x -> bounded (children_from L x) y -> bounded L (x ++ y).
Proof.
  intros X Y a b E. apply app_eq_app in E. destruct E as (m & [[E1 E2]|[E1 E2]]).
  - apply (X a m). exact E1.
  - subst a. rewrite children_app. apply (Y m b). exact E2.
Qed.
Lemma bounded_cons L e x : (length L <= 1)%nat -> bounded (children_from L [e]) x -> bounded L (e :: x).
Proof.
  intros B H a b E. destruct a as [|e' a]; [exact B|]. injection E as <- E. change (e :: a) with ([e] ++ a). rewrite children_app. apply (H a b E).
Qed.
Lemma bounded_nil L : (length L <= 1)%nat -> bounded L [].
Proof. intros B a b E. symmetry in E. apply app_eq_nil in E. destruct E as [-> _]. exact B. Qed.
Lemma owns_le L ch : owns L ch -> (length L <= 1)%nat.
Proof. intros [->|[-> _]]; cbn; lia. Qed.
Definition silent (tr : list event) : Prop := forall L, children_from L tr = L.
Lemma silent_bounded L tr : (length L <= 1)%nat -> (forall a b, tr = a ++ b -> children_from L a = L) -> bounded L tr.
Proof. intros B H a b E. rewrite (H a b E). exact B. Qed.
Definition mute (e : event) : Prop := match e with EFork _ | EWait _ => False | _ => True end.
Lemma mute_from tr : Forall mute tr -> forall L, children_from L tr = L.
Proof. induction 1 as [|e tr M _ IH]; intros L; [reflexivity|]. destruct e; cbn in M |- *; try contradiction; apply IH. Qed.
Lemma mute_bounded L tr : (length L <= 1)%nat -> Forall mute tr -> bounded L tr.
Proof.
  intros B F a b ->. apply Forall_app in F. rewrite mute_from by apply F. exact B.
Qed.
Lemma mute_prints a b ps : Forall mute (prints_to a b ps).
Proof.
  apply Forall_forall. intros e I. unfold prints_to in I. apply in_flat_map in I. destruct I as ([x bs] & _ & I). cbn [snd] in I.
  destruct bs; [destruct I|]. destruct I as [<-|[]]. exact Logic.I.
Qed.
Lemma mute_writes o bs : Forall mute (writes_to o bs).
Proof. destruct bs; cbn; repeat constructor. Qed.
Lemma end_child_from L s : owns L (s_child s) -> children_from L (end_child s) = [] /\ bounded L (end_child s).
Proof.
  intros O. unfold end_child. destruct (s_child s =? 0) eqn:E.
  - apply Z.eqb_eq in E. destruct O as [->|[_ N]]; [|contradiction]. split; [reflexivity|]. apply bounded_nil. cbn. lia.
  - assert (R : remove_pid (s_child s) L = []).
    { destruct O as [->|[-> _]]; [reflexivity|]. cbn. rewrite Z.eqb_refl. reflexivity. }
    unfold kill_and_wait. cbn [children_from]. split; [exact R|]. apply bounded_cons; [eapply owns_le; exact O|]. cbn [children_from].
    apply bounded_cons; [eapply owns_le; exact O|]. cbn [children_from]. rewrite R. apply bounded_nil. cbn. lia.
Qed.
Lemma owns_remove p L ch : owns L ch -> owns (remove_pid p L) ch.
Proof.
  intros [->|[-> N]]; [left; reflexivity|]. cbn. destruct (ch =? p); [left; reflexivity|right; auto].
Qed.
Lemma exec_children s n fd c argv ev r d ch L : exec_does t0 s n fd c argv ev r d ch -> owns L (s_child s) ->
  (forall p, c_fork c = FParent p -> 0 < p) -> owns (children_from L ev) ch /\ bounded L ev.
Proof.
  intros X O P. pose proof (owns_le _ _ O) as LE.
  assert (M : forall tr, Forall mute tr -> owns (children_from L tr) (s_child s) /\ bounded L tr).
  { intros tr F. rewrite mute_from by exact F. split; [exact O|]. apply mute_bounded; assumption. }
  destruct (end_child_from L s O) as [EC EB].
  destruct X.
  - apply M. constructor; [exact I|apply mute_prints].
  - apply M. apply mute_writes.
  - apply M. constructor; [exact I|apply mute_prints].
  - apply M. constructor.
  - apply M. constructor.
  - rewrite EC. split; [left; reflexivity|exact EB].
  - rewrite children_app, EC. cbn [children_from]. split.
    + right. split; [reflexivity|]. specialize (P _ H). lia.
    + apply bounded_app; [exact EB|]. rewrite EC. apply bounded_cons; [cbn; lia|]. cbn [children_from].
      apply mute_bounded; [cbn; lia|]. repeat constructor.
  - rewrite children_app, EC. cbn [children_from]. split; [left; reflexivity|]. apply bounded_app; [exact EB|]. rewrite EC.
    apply mute_bounded; [cbn; lia|]. repeat constructor.
  - cbn [children_from]. split; [apply owns_remove; exact O|]. apply bounded_cons; [exact LE|]. cbn [children_from].
    apply bounded_cons; [exact LE|]. cbn [children_from]. apply bounded_nil. eapply owns_le. apply owns_remove. exact O.
  - apply M. apply mute_writes.
  - apply M. constructor; [exact I|apply mute_prints].
Qed.
Lemma conn_children s n fd c ev h d ch L : conn_does t0 s n fd c ev h d ch -> owns L (s_child s) ->
  (forall p, c_fork c = FParent p -> 0 < p) -> owns (children_from L ev) ch /\ bounded L ev.
Proof.
  intros X O P. pose proof (owns_le _ _ O) as LE. destruct X.
  - cbn [children_from]. split; [exact O|]. apply bounded_nil. exact LE.
  - cbn [children_from]. split; [exact O|]. apply bounded_nil. exact LE.
  - cbn [children_from]. split; [exact O|]. apply mute_bounded; [exact LE|repeat constructor].
  - destruct (exec_children _ _ _ _ _ _ _ _ _ L H0 O P) as [A B]. rewrite children_app. cbn [children_from]. split; [exact A|].
    apply bounded_app; [exact B|]. apply mute_bounded; [eapply owns_le; exact A|repeat constructor].
  - exact (exec_children _ _ _ _ _ _ _ _ _ L H0 O P).
Qed.
Lemma runs_children l s s3 tr f : runs t0 l s s3 tr f -> forks_ok l -> forall L, owns L (s_child s) ->
  bounded L tr /\ (forall code, f = FExit code -> children_from L tr = []).
Proof.
  induction 1 as [s G|r s G|r s G|c r s s2 fd ev f G B E X|c r s s2 fd ev G B E X G2|c r s s2 s3 fd ev rv ev' f G B E X NS N R IH]; intros FO L O;
    pose proof (owns_le _ _ O) as LE.
  - split; [apply bounded_nil; exact LE|discriminate].
  - destruct (end_child_from L s O). auto.
  - destruct (end_child_from L s O). auto.
  - destruct (conn_children _ _ _ _ _ _ _ _ L X O) as [A BD]; [intros p; apply (FO c p); left; reflexivity|].
    split; [apply bounded_cons; [exact LE|exact BD]|]. intros code ->. inversion X.
  - destruct (conn_children _ _ _ _ _ _ _ _ L X O) as [A BD]; [intros p; apply (FO c p); left; reflexivity|].
    destruct (end_child_from _ s2 A) as [EC EB]. split.
    + apply bounded_cons; [exact LE|]. cbn [children_from]. apply bounded_app; [exact BD|exact EB].
    + intros _ _. cbn [children_from]. rewrite children_app. exact EC.
  - destruct (conn_children _ _ _ _ _ _ _ _ L X O) as [A BD]; [intros p; apply (FO c p); left; reflexivity|].
    destruct (IH (fun c' p I => FO c' p (or_intror I)) _ A) as [A1 A2]. split.
    + apply bounded_cons; [exact LE|]. cbn [children_from]. apply bounded_app; [exact BD|exact A1].
    + intros code EF. cbn [children_from]. rewrite children_app. exact (A2 code EF).
Qed.

(** Whom the server signals, if no kill command names the child. *)
Definition holds (L : list Z) (ch : Z) : Prop := L = if ch =? 0 then [] else [ch].
Lemma holds_owns L ch : holds L ch -> owns L ch.
Proof. unfold holds. intros ->. destruct (ch =? 0) eqn:E; [left; reflexivity|right; split; [reflexivity|lia]]. Qed.
Definition own_signals (named : Z -> Prop) (L : list Z) (tr : list event) : Prop :=
  forall a p b, tr = a ++ ESignal p :: b -> In p (children_from L a) \/ named p.
Lemma own_app K L x y : own_signals K L x -> own_signals K (children_from L x) y -> own_signals K L (x ++ y).
Proof.
  intros X Y a p b E. apply app_eq_app in E. destruct E as (m & [[E1 E2]|[E1 E2]]).
  - destruct m as [|e m].
    + rewrite app_nil_r in E1. subst a. cbn [app] in E2. apply (Y [] p b). symmetry. exact E2.
    + injection E2 as <- E2. apply (X a p m). exact E1.
  - subst a. rewrite children_app. apply (Y m p b). exact E2.
Qed.
Definition unsignal (e : event) : Prop := match e with ESignal _ => False | _ => True end.
Lemma own_none K L tr : Forall unsignal tr -> own_signals K L tr.
Proof. intros F a p b ->. apply Forall_app in F. destruct F as [_ F]. inversion F. contradiction. Qed.
Lemma own_end K L s : holds L (s_child s) -> own_signals K L (end_child s).
Proof.
  unfold holds, end_child. intros H. destruct (s_child s =? 0) eqn:E; [apply own_none; constructor|].
  intros a p b EQ. destruct a as [|e a]; [injection EQ as EQ _; left; rewrite H; left; exact EQ|].
  injection EQ as <- EQ. destruct a as [|e a]; [discriminate|]. injection EQ as _ EQ. destruct a; discriminate.
Qed.
Lemma unsignal_prints a b ps : Forall unsignal (prints_to a b ps).
Proof.
  apply Forall_forall. intros e I. unfold prints_to in I. apply in_flat_map in I. destruct I as ([x bs] & _ & I). cbn [snd] in I.
  destruct bs; [destruct I|]. destruct I as [<-|[]]. exact Logic.I.
Qed.
Lemma unsignal_writes o bs : Forall unsignal (writes_to o bs).
Proof. destruct bs; cbn; repeat constructor. Qed.
Lemma exec_signals K s n fd c argv ev r d ch L : exec_does t0 s n fd c argv ev r d ch -> holds L (s_child s) ->
  (forall p, c_fork c = FParent p -> 0 < p) ->
  (forall args p, argv = str "kill" :: args -> scan_d (hd [] args) = Some p -> K p /\ p <> s_child s) ->
  holds (children_from L ev) ch /\ own_signals K L ev.
Proof.
  intros X HO P KN.
  assert (M : forall tr, Forall mute tr -> Forall unsignal tr -> holds (children_from L tr) (s_child s) /\ own_signals K L tr).
  { intros tr F U. rewrite mute_from by exact F. split; [exact HO|]. apply own_none; assumption. }
  destruct (end_child_from L s (holds_owns _ _ HO)) as [EC _]. pose proof (own_end K L s HO) as OE.
  destruct X.
  - apply M; constructor; [exact I|apply mute_prints|exact I|apply unsignal_prints].
  - apply M; [apply mute_writes|apply unsignal_writes].
  - apply M; constructor; [exact I|apply mute_prints|exact I|apply unsignal_prints].
  - apply M; constructor.
  - apply M; constructor.
  - rewrite EC. split; [reflexivity|exact OE].
  - rewrite children_app, EC. cbn [children_from]. split.
    + unfold holds. specialize (P _ H). replace (pid =? 0) with false by lia. reflexivity.
    + apply own_app; [exact OE|]. apply own_none. repeat constructor.
  - rewrite children_app, EC. split; [reflexivity|]. apply own_app; [exact OE|]. apply own_none. repeat constructor.
  - destruct (KN args pid eq_refl H) as [K1 K2]. cbn [children_from]. split.
    + unfold holds in *. rewrite HO. destruct (s_child s =? 0) eqn:EZ; [reflexivity|]. cbn.
      replace (s_child s =? pid) with false by lia. reflexivity.
    + intros a p b EQ. destruct a as [|e a]; [injection EQ as EQ _; right; rewrite <- EQ; exact K1|].
      injection EQ as <- EQ. destruct a as [|e a]; [discriminate|]. injection EQ as _ EQ. destruct a; discriminate.
  - apply M; [apply mute_writes|apply unsignal_writes].
  - apply M; constructor; [exact I|apply mute_prints|exact I|apply unsignal_prints].
Qed.
Lemma conn_signals K s n fd c ev h d ch L : conn_does t0 s n fd c ev h d ch -> holds L (s_child s) ->
  (forall p, c_fork c = FParent p -> 0 < p) ->
  (forall p, killed_by (IConn c) p -> K p /\ p <> s_child s) ->
  holds (children_from L ev) ch /\ own_signals K L ev.
Proof.
  intros X HO P KN.
  assert (M : forall tr, Forall mute tr -> Forall unsignal tr -> holds (children_from L tr) (s_child s) /\ own_signals K L tr).
  { intros tr F U. rewrite mute_from by exact F. split; [exact HO|]. apply own_none; assumption. }
  assert (KX : forall argv, handle_client (c_recv c) = HExec argv ->
    forall args p, argv = str "kill" :: args -> scan_d (hd [] args) = Some p -> K p /\ p <> s_child s).
  { intros argv EH args p -> ES. apply KN. exists args. split; [|exact ES]. cbn [request]. rewrite EH. reflexivity. }
  destruct X.
  - apply M; constructor.
  - apply M; constructor.
  - apply M; repeat constructor.
  - destruct (exec_signals K _ _ _ _ _ _ _ _ _ L H0 HO P (KX _ H)) as [A B]. rewrite children_app. cbn [children_from]. split; [exact A|].
    apply own_app; [exact B|]. apply own_none. repeat constructor.
  - exact (exec_signals K _ _ _ _ _ _ _ _ _ L H0 HO P (KX _ H)).
Qed.
Lemma exec_child_from s n fd c argv ev r d ch : exec_does t0 s n fd c argv ev r d ch ->
  ch = s_child s \/ ch = 0 \/ c_fork c = FParent ch.
Proof. destruct 1; auto. Qed.
Lemma conn_child_from s n fd c ev h d ch : conn_does t0 s n fd c ev h d ch -> ch = s_child s \/ ch = 0 \/ c_fork c = FParent ch.
Proof. destruct 1; auto; eapply exec_child_from; eassumption. Qed.
Lemma runs_signals K l s s3 tr f : runs t0 l s s3 tr f -> forks_ok l ->
  (forall i p, In i l -> killed_by i p -> K p /\ p <> s_child s /\ p <> 0 /\ forall c, In (IConn c) l -> c_fork c <> FParent p) ->
  forall L, holds L (s_child s) -> own_signals K L tr.
Proof.
  induction 1 as [s G|r s G|r s G|c r s s2 fd ev f G B E X|c r s s2 fd ev G B E X G2|c r s s2 s3 fd ev rv ev' f G B E X NS N R IH]; intros FO KN L HO.
  - apply own_none. constructor.
  - apply own_end. exact HO.
  - apply own_end. exact HO.
  - change (EAccept (s_n s) :: ev) with ([EAccept (s_n s)] ++ ev). apply own_app; [apply own_none; repeat constructor|].
    eapply conn_signals; [exact X|exact HO|intros p; apply (FO c p); left; reflexivity|].
    intros p KB. destruct (KN _ p (or_introl eq_refl) KB) as (K1 & K2 & _). auto.
  - change (EAccept (s_n s) :: ev ++ end_child s2) with ([EAccept (s_n s)] ++ ev ++ end_child s2). apply own_app; [apply own_none; repeat constructor|].
    destruct (conn_signals K _ _ _ _ _ _ _ _ L X HO) as [A1 A2]; [intros p; apply (FO c p); left; reflexivity| |].
    { intros p KB. destruct (KN _ p (or_introl eq_refl) KB) as (K1 & K2 & _). auto. }
    apply own_app; [exact A2|]. apply own_end. exact A1.
  - change (EAccept (s_n s) :: ev ++ ev') with ([EAccept (s_n s)] ++ ev ++ ev'). apply own_app; [apply own_none; repeat constructor|].
    destruct (conn_signals K _ _ _ _ _ _ _ _ L X HO) as [A1 A2]; [intros p; apply (FO c p); left; reflexivity| |].
    { intros p KB. destruct (KN _ p (or_introl eq_refl) KB) as (K1 & K2 & _). auto. }
    apply own_app; [exact A2|]. apply IH; [intros c' p I; apply (FO c' p (or_intror I))| |exact A1].
    intros i p I KB. destruct (KN i p (or_intror I) KB) as (K1 & K2 & K3 & K4). split; [exact K1|]. split.
    + destruct (conn_child_from _ _ _ _ _ _ _ _ X) as [->|[->|F]]; [exact K2|exact K3|]. intros ->. exact (K4 c (or_introl eq_refl) F).
    + split; [exact K3|]. intros c' I'. apply K4. right. exact I'.
Qed.

(** ** Going on *)
Lemma runs_served l s s3 tr f : runs t0 l s s3 tr f -> Forall served_well l ->
  f = FWaiting /\ good t0 s3 /\ forall k, (k < length l)%nat -> In (EAccept (s_n s + k)%nat) tr.
Proof.
  assert (NG : forall s n fd c ev f d ch, conn_does t0 s n fd c ev (HFin f) d ch -> served_well (IConn c) -> False).
  { intros s' n fd c ev f' d ch X W. cbn [served_well] in W. inversion X as [E|[E|E]| | |? ? ? ? E Y]; subst; rewrite E in W; try contradiction.
    destruct W as (_ & _ & W). inversion Y; subst; contradiction. }
  induction 1 as [s G|r s G|r s G|c r s s2 fd ev f G B E X|c r s s2 fd ev G B E X G2|c r s s2 s3 fd ev rv ev' f G B E X NS N R IH]; intros W.
  - split; [reflexivity|]. split; [exact G|]. intros k H. cbn in H. lia.
  - inversion W as [|? ? W1]. destruct W1.
  - inversion W as [|? ? W1]. destruct W1.
  - inversion W as [|? ? W1]. exfalso. eapply NG; eassumption.
  - inversion W as [|? ? W1]. exfalso. cbn [served_well] in W1. inversion X as [| | |? ? ? ? ? EH Y|]; subst. rewrite EH in W1.
    destruct W1 as (W1 & W2 & _). unfold SERVER_STOP in *. inversion Y; subst; cbn [hd] in W1; try congruence; try lia.
  - inversion W as [|? ? _ W2]. subst. destruct (IH W2) as (A & G3 & I). split; [exact A|]. split; [exact G3|]. intros k H. destruct k as [|k].
    + rewrite Nat.add_0_r. left. reflexivity.
    + right. apply in_app_iff. right. replace (s_n s + S k)%nat with (s_n s2 + k)%nat by lia. apply I. cbn in H. lia.
Qed.
Lemma runs_fds l s s3 tr f : runs t0 l s s3 tr f -> f = FWaiting \/ (exists code, f = FExit code) -> good t0 s3.
Proof.
  induction 1; intros F; try assumption; auto. exfalso. inversion H2; subst; destruct F as [F|[? F]]; discriminate.
Qed.
(** Stopping: nobody is served after that. *)
Lemma runs_stop l s s3 tr f : runs t0 l s s3 tr f -> forall k args, In (EAccept (s_n s + k)%nat) tr ->
  option_map request (nth_error l k) = Some (Some (str "stop" :: args)) ->
  f = FExit 0 /\ forall m, In (EAccept m) tr -> (m <= s_n s + k)%nat.
Proof.
  induction 1 as [s G|r s G|r s G|c r s s2 fd ev f G B E X|c r s s2 fd ev G B E X G2|c r s s2 s3 fd ev rv ev' f G B E X NS N R IH]; intros k args I Q.
  - destruct I.
  - exfalso. exact (end_child_no_accept _ _ I).
  - exfalso. exact (end_child_no_accept _ _ I).
  - exfalso. destruct I as [I|I]; [|exact (conn_no_accept _ _ _ _ _ _ _ _ X _ I)].
    injection I as I. assert (k = 0%nat) by lia. subst k. cbn [nth_error option_map request] in Q.
    inversion X as [EH|[EH|EH]| | |? ? ? ? EH Y]; subst; rewrite EH in Q; try discriminate. injection Q as ->. inversion Y.
  - split; [reflexivity|]. intros m [J|J]; [injection J; lia|]. exfalso. apply in_app_iff in J.
    destruct J as [J|J]; [exact (conn_no_accept _ _ _ _ _ _ _ _ X _ J)|exact (end_child_no_accept _ _ J)].
  - destruct I as [I|I].
    + injection I as I. assert (k = 0%nat) by lia. subst k. exfalso. cbn [nth_error option_map request] in Q.
      inversion X as [| |EH|? ? ? ? ? EH Y|]; subst; rewrite EH in Q; try discriminate. injection Q as ->.
      inversion Y; subst; try (destruct just; discriminate); try contradiction.
      match goal with H : ~ In _ _ |- _ => apply H end. unfold quiet_cmds. cbn [In]. auto 10.
    + apply in_app_iff in I. destruct I as [I|I]; [exfalso; exact (conn_no_accept _ _ _ _ _ _ _ _ X _ I)|].
      pose proof (runs_accepts _ _ _ _ _ R _ I) as L. destruct k as [|k]; [lia|].
      replace (s_n s + S k)%nat with (s_n s2 + k)%nat in * by lia. cbn [nth_error] in Q.
      destruct (IH k args I Q) as [A1 A2]. split; [exact A1|]. intros m [J|J]; [injection J; lia|].
      apply in_app_iff in J. destruct J as [J|J]; [exfalso; exact (conn_no_accept _ _ _ _ _ _ _ _ X _ J)|]. apply A2. exact J.
Qed.
End Trace.

(** ** Numbers *)
Lemma value_cons c s : value (c :: s) = (c - 48) * 10 ^ zlen s + value s.
Proof.
  unfold value. cbn [fold_left]. rewrite Z.mul_0_r, Z.add_0_l. generalize (c - 48). induction s as [|x s IH] using rev_ind; intros a.
  - cbn. lia.
  - rewrite !fold_left_app. cbn [fold_left]. rewrite IH. unfold zlen. rewrite app_length. cbn [length].
    rewrite Nat2Z.inj_add, Z.pow_add_r by lia. change (10 ^ Z.of_nat 1) with 10. unfold zlen. lia.
Qed.
Lemma dec_rec_spec fuel : forall n acc, 0 <= n < 10 ^ Z.of_nat fuel -> digs acc -> (0 < fuel)%nat ->
  digs (dec_rec fuel n acc) /\ value (dec_rec fuel n acc) = n * 10 ^ zlen acc + value acc /\
  dec_rec fuel n acc <> [] /\ (0 < n -> hd 0 (dec_rec fuel n acc) <> 48).
Proof.
  induction fuel as [|f IH]; intros n acc B D F; [lia|]. cbn [dec_rec].
  pose proof (Z.mod_pos_bound n 10 ltac:(lia)) as MB. pose proof (Z.div_mod n 10 ltac:(lia)) as DM.
  assert (DA : digs ((48 + n mod 10) :: acc)) by (constructor; [lia|exact D]).
  destruct (n <? 10) eqn:E.
  - split; [exact DA|]. split; [|split; [discriminate|cbn [hd]; intros P; rewrite Z.mod_small by lia; lia]].
    rewrite value_cons. rewrite Z.mod_small by lia. replace (48 + n - 48) with n by lia. reflexivity.
  - assert (f <> 0)%nat by (intros ->; change (10 ^ Z.of_nat 1) with 10 in B; lia).
    destruct (IH (n / 10) ((48 + n mod 10) :: acc)) as (H1 & H2 & H3 & H4); [|exact DA|lia|].
    { replace (Z.of_nat (S f)) with (1 + Z.of_nat f) in B by lia. rewrite Z.pow_add_r in B by lia. change (10 ^ 1) with 10 in B.
      split; [apply Z.div_pos; lia|]. apply Z.div_lt_upper_bound; lia. }
    split; [exact H1|]. split; [|split; [exact H3|intros _; apply H4; apply Z.div_str_pos; lia]].
    rewrite H2, value_cons. unfold zlen. cbn [length]. replace (Z.of_nat (S (length acc))) with (1 + Z.of_nat (length acc)) by lia.
    rewrite Z.pow_add_r by lia. change (10 ^ 1) with 10. nia.
Qed.
Lemma dec_numeral n : 0 < n < 2 ^ 31 -> numeral (dec n) n.
Proof.
  intros B. destruct (dec_rec_spec 10 n []) as (H1 & H2 & H3 & H4); [cbn; lia|constructor|lia|]. unfold dec.
  split; [exact H3|]. split; [exact H1|]. split; [rewrite H2; cbn; lia|]. intros X. contradiction (H4 ltac:(lia)).
Qed.

(** ** Addresses *)
Lemma path_part_app s r : Forall (fun c => 0 < c) s -> path_part (map Some s ++ Some 0 :: r) = Some s.
Proof.
  induction 1 as [|c s P F IH]; [reflexivity|]. cbn [map app path_part]. rewrite IH. destruct c; [lia|reflexivity|lia].
Qed.
Lemma unix_path s r : hd 0 s = 47 -> Forall (fun c => 0 < c) s -> unix_name (map Some s ++ Some 0 :: r) = Some (UPath s).
Proof.
  intros H F. destruct s as [|c s]; [discriminate|]. cbn [hd] in H. subst c. pose proof (path_part_app _ r F) as E. cbn [map app] in *.
  unfold unix_name. rewrite E. reflexivity.
Qed.
Lemma client_addr_short p argv : client_path argv = p -> (length p <= 106)%nat -> exists r, client_addr argv = map Some p ++ Some 0 :: r.
Proof.
  intros E L. unfold client_addr. rewrite E, firstn_all2 by lia. unfold pad. remember (107 - length p)%nat as k eqn:EK. destruct k as [|k]; [lia|].
  cbn [repeat]. rewrite map_app, <- app_assoc. eexists. reflexivity.
Qed.
Lemma same_socket p args : hd 0 p = 47 -> Forall (fun c => 0 < c) p -> (length p <= 106)%nat ->
  exists a, bind_socket true true p = BAddr a /\ unix_name (map Some a) = Some (UPath p) /\
    unix_name (client_addr (p :: args)) = Some (UPath p).
Proof.
  intros H F L. exists (p ++ [0]). split; [|split].
  - destruct p as [|c p]; [discriminate|]. cbn [hd] in H. subst c. cbn [bind_socket]. unfold SUN_PATH, zlen. cbn [length] in *.
    replace (108 <=? _) with false by lia. reflexivity.
  - rewrite map_app. apply unix_path; assumption.
  - destruct (client_addr_short p (p :: args)) as [r ->]; [|exact L|apply unix_path; assumption].
    cbn [client_path]. destruct p as [|c p]; [discriminate|]. cbn [hd] in H. subst c. reflexivity.
Qed.
Lemma default_name cmd args : hd 0 cmd <> 47 -> unix_name (client_addr (cmd :: args)) = Some (UPath (str "/var/run/libcare.sock")).
Proof.
  intros H. destruct (client_addr_short (str "/var/run/libcare.sock") (cmd :: args)) as [r ->].
  - cbn [client_path]. destruct cmd as [|c cmd]; [reflexivity|]. cbn [hd starts_slash] in *. replace (c =? 47) with false by lia. reflexivity.
  - apply Nat.leb_le. reflexivity.
  - apply unix_path; [reflexivity|]. repeat (apply Forall_cons; [reflexivity|]). apply Forall_nil.
Qed.
Lemma long_refused p a b : hd 0 p = 47 -> (107 <= length p)%nat -> bind_socket a b p = BRefused.
Proof.
  intros H L. destruct p as [|c p]; [discriminate|]. cbn [hd] in H. subst c. cbn [bind_socket]. unfold SUN_PATH, zlen. cbn [length] in *.
  replace (108 <=? _) with true by lia. reflexivity.
Qed.
Lemma client_is_path argv : exists r, client_addr argv = Some 47 :: r.
Proof.
  assert (E : exists p, client_path argv = 47 :: p).
  { unfold client_path. destruct argv as [|a argv]; [eexists; reflexivity|]. destruct a as [|c a]; cbn [starts_slash]; [eexists; reflexivity|].
    destruct (c =? 47) eqn:E; [apply Z.eqb_eq in E; subst; eauto|eexists; reflexivity]. }
  destruct E as [p E]. unfold client_addr. rewrite E. cbn [firstn]. unfold pad. cbn [app map]. eexists. reflexivity.
Qed.
