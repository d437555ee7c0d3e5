(** Lemmas about processes that run while the tool looks at them. *)
From Verif Require Import Base BaseProofs HoleModel HoleSpec HoleProofs RaceModel RaceSpec.

Lemma image_in p l i : image_of p l = Some i -> In (p, i) l.
Proof.
  induction l as [|[q j] l IH]; cbn; [discriminate|]. destruct (Z.eqb_spec q p) as [->|N]; intro H.
  - apply some_inj in H. subst. left; reflexivity.
  - right. exact (IH H).
Qed.
Lemma in_image p l i : NoDup (map fst l) -> In (p, i) l -> image_of p l = Some i.
Proof.
  induction l as [|[q j] l IH]; cbn; [intros _ []|]. intros N [E|Hi].
  - injection E as -> ->. rewrite Z.eqb_refl. reflexivity.
  - inversion N as [|x y N1 N2]; subst. destruct (Z.eqb_spec q p) as [->|_]; [|exact (IH N2 Hi)].
    destruct N1. apply (in_map fst) in Hi. exact Hi.
Qed.
Lemma in_leave p q i l : In (p, i) (leave q l) <-> In (p, i) l /\ p <> q.
Proof.
  unfold leave. rewrite filter_In. cbn. split; intros [H1 H2]; split; try assumption.
  - destruct (Z.eqb_spec p q); [discriminate|assumption].
  - destruct (Z.eqb_spec p q); [contradiction|reflexivity].
Qed.
Lemma leave_nodup {B} (f : Z * nat -> B) q l : NoDup (map f l) -> NoDup (map f (leave q l)).
Proof.
  unfold leave. induction l as [|t l IH]; cbn; [auto|]. intro N. inversion N as [|x y N1 N2]; subst.
  destruct (negb (fst t =? q)); cbn; [|exact (IH N2)]. constructor; [|exact (IH N2)].
  intro Hi. apply in_map_iff in Hi. destruct Hi as (u & Hu & Hi). apply filter_In in Hi. apply N1.
  rewrite <- Hu. apply in_map. apply Hi.
Qed.
Lemma image_leave p q l : p <> q -> image_of p (leave q l) = image_of p l.
Proof.
  intro N. unfold leave. induction l as [|[r j] l IH]; cbn; [reflexivity|].
  destruct (Z.eqb_spec r q) as [->|Nr]; cbn; destruct (Z.eqb_spec q p); try congruence; rewrite ?IH; try reflexivity.
Qed.
Lemma alive_in w i : alive w i = true <-> exists p, In (p, i) (w_tasks w).
Proof.
  unfold alive. rewrite existsb_exists. split.
  - intros ([p j] & Hi & E). cbn in E. apply Nat.eqb_eq in E. subst. exists p. exact Hi.
  - intros (p & Hi). exists (p, i). split; [exact Hi|]. cbn. apply Nat.eqb_refl.
Qed.

Definition shares (a : act) : Prop := match a with AShare _ _ => True | _ => False end.

Lemma fresh_well p l w : well w -> well (fresh_image p l w).
Proof.
  intros (W1 & W2 & W3). unfold well, fresh_image. cbn. repeat split.
  - constructor; [|apply leave_nodup; exact W1]. intro Hi. apply in_map_iff in Hi. destruct Hi as ([q j] & E & Hi).
    cbn in E. subst. apply in_leave in Hi. destruct Hi as [_ N]. exact (N eq_refl).
  - constructor; [|apply leave_nodup; exact W2]. intro Hi. apply in_map_iff in Hi. destruct Hi as ([q j] & E & Hi).
    cbn in E. subst. apply in_leave in Hi. destruct Hi as [Hi _]. apply W3 in Hi. lia.
  - intros q i [E|Hi].
    + injection E as <- <-. lia.
    + apply in_leave in Hi. destruct Hi as [Hi _]. apply W3 in Hi. lia.
Qed.
Lemma act_well a w : ~ shares a -> well w -> well (act_do a w).
Proof.
  intros Ns W. destruct a as [p l|p l|p|p l|p q]; cbn.
  - destruct (image_of p (w_tasks w)); exact W.
  - destruct (image_of p (w_tasks w)); [apply fresh_well|]; exact W.
  - destruct W as (W1 & W2 & W3). unfold well; cbn. split; [apply leave_nodup; exact W1|].
    split; [apply leave_nodup; exact W2|]. intros q i Hi. apply in_leave in Hi. destruct Hi as [Hi _]. exact (W3 _ _ Hi).
  - destruct (image_of p (w_tasks w)); [|apply fresh_well]; exact W.
  - destruct Ns. exact I.
Qed.

(** An image only ever goes out of use: of the processes that have it after, each had it. *)
Lemma act_users a w p i : ~ shares a -> (i < w_next w)%nat -> In (p, i) (w_tasks (act_do a w)) -> In (p, i) (w_tasks w).
Proof.
  intros Ns Hi. destruct a as [q l|q l|q|q l|q r]; cbn.
  - destruct (image_of q (w_tasks w)); auto.
  - destruct (image_of q (w_tasks w)); [|auto]. cbn. intros [E|H]; [injection E as <- <-; lia|].
    apply in_leave in H. apply H.
  - intro H. apply in_leave in H. apply H.
  - destruct (image_of q (w_tasks w)); [auto|]. cbn. intros [E|H]; [injection E as <- <-; lia|].
    apply in_leave in H. apply H.
  - destruct Ns. exact I.
Qed.
Lemma act_next a w : (w_next w <= w_next (act_do a w))%nat.
Proof.
  destruct a as [q l|q l|q|q l|q r]; cbn; try destruct (image_of q (w_tasks w)); cbn; try lia.
  destruct (image_of r (w_tasks w)); cbn; lia.
Qed.
(** A process that does nothing keeps its image and, having it alone, the map. *)
Lemma act_other a w p i : ~ shares a -> well w -> actor a <> p -> image_of p (w_tasks w) = Some i ->
  image_of p (w_tasks (act_do a w)) = Some i /\ w_maps (act_do a w) i = w_maps w i.
Proof.
  intros Ns W Np Hp. pose proof (proj2 (proj2 W) _ _ (image_in _ _ _ Hp)) as Hlt.
  assert (F : forall q l, q <> p -> image_of p (w_tasks (fresh_image q l w)) = Some i /\
    w_maps (fresh_image q l w) i = w_maps w i).
  { intros q l Nq. unfold fresh_image, set_image. cbn. destruct (Z.eqb_spec q p); [contradiction|].
    rewrite image_leave by (intro; subst; contradiction). split; [exact Hp|].
    destruct (Nat.eqb_spec i (w_next w)); [lia|reflexivity]. }
  destruct a as [q l|q l|q|q l|q r]; cbn in *.
  - destruct (image_of q (w_tasks w)) as [j|] eqn:Eq; [|auto]. cbn. split; [exact Hp|].
    unfold set_image. destruct (Nat.eqb_spec i j) as [->|]; [|reflexivity].
    exfalso. apply Np. pose proof (image_in _ _ _ Eq) as I1. pose proof (image_in _ _ _ Hp) as I2.
    destruct W as (_ & W2 & _). revert W2 I1 I2. generalize (w_tasks w). clear.
    induction l as [|[x y] l IH]; cbn; [intros _ []|]. intros N [E1|I1] [E2|I2]; inversion N as [|? ? N1 N2]; subst.
    + congruence.
    + injection E1 as -> ->. destruct N1. exact (in_map snd _ _ I2).
    + injection E2 as -> ->. destruct N1. exact (in_map snd _ _ I1).
    + exact (IH N2 I1 I2).
  - destruct (image_of q (w_tasks w)); [apply F; exact Np|auto].
  - split; [|reflexivity]. rewrite image_leave by (intro; subst; contradiction). exact Hp.
  - destruct (image_of q (w_tasks w)); [auto|apply F; exact Np].
  - destruct Ns. exact I.
Qed.

Lemma acts_well held l w : (forall a, In a l -> ~ shares a) -> well w -> well (acts held l w).
Proof.
  revert w. induction l as [|a l IH]; intros w Ns W; [exact W|]. cbn [acts].
  apply IH; [intros b Hb; apply Ns; right; exact Hb|].
  assert (W' : well (act_do a w)) by (apply act_well; [apply Ns; left; reflexivity|exact W]).
  destruct held as [p|]; [|exact W']. destruct (actor a =? p); assumption.
Qed.
Lemma acts_next held l w : (w_next w <= w_next (acts held l w))%nat.
Proof.
  revert w. induction l as [|a l IH]; intro w; [cbn; lia|]. cbn [acts].
  pose proof (act_next a w). destruct held as [p|]; [destruct (actor a =? p)|];
  match goal with |- context[acts ?h l ?x] => specialize (IH x) end; lia.
Qed.
Lemma acts_users held l w p i : (forall a, In a l -> ~ shares a) -> (i < w_next w)%nat ->
  In (p, i) (w_tasks (acts held l w)) -> In (p, i) (w_tasks w).
Proof.
  revert w. induction l as [|a l IH]; intros w Ns Hi H; [exact H|]. cbn [acts] in H.
  assert (Na : ~ shares a) by (apply Ns; left; reflexivity).
  assert (Nl : forall b, In b l -> ~ shares b) by (intros b Hb; apply Ns; right; exact Hb).
  pose proof (act_next a w).
  destruct held as [q|]; [destruct (actor a =? q)|].
  - exact (IH _ Nl Hi H).
  - apply (act_users a w p i Na Hi). apply (IH _ Nl); [lia|exact H].
  - apply (act_users a w p i Na Hi). apply (IH _ Nl); [lia|exact H].
Qed.
Lemma acts_held l w p i : (forall a, In a l -> ~ shares a) -> well w -> image_of p (w_tasks w) = Some i ->
  image_of p (w_tasks (acts (Some p) l w)) = Some i /\ w_maps (acts (Some p) l w) i = w_maps w i.
Proof.
  revert w. induction l as [|a l IH]; intros w Ns W Hp; [auto|]. cbn [acts].
  assert (Na : ~ shares a) by (apply Ns; left; reflexivity).
  assert (Nl : forall b, In b l -> ~ shares b) by (intros b Hb; apply Ns; right; exact Hb).
  destruct (Z.eqb_spec (actor a) p) as [E|N]; [exact (IH w Nl W Hp)|].
  destruct (act_other a w p i Na W N Hp) as [E1 E2].
  destruct (IH _ Nl (act_well a w Na W) E1) as [F1 F2]. split; [exact F1|]. rewrite F2. exact E2.
Qed.
Lemma acts_quiet l w p i : (forall a, In a l -> ~ shares a) -> quiet p l -> well w -> image_of p (w_tasks w) = Some i ->
  image_of p (w_tasks (acts None l w)) = Some i /\ w_maps (acts None l w) i = w_maps w i.
Proof.
  revert w. induction l as [|a l IH]; intros w Ns Q W Hp; [auto|]. cbn [acts].
  assert (Na : ~ shares a) by (apply Ns; left; reflexivity).
  assert (Nl : forall b, In b l -> ~ shares b) by (intros b Hb; apply Ns; right; exact Hb).
  destruct (act_other a w p i Na W (Q a (or_introl eq_refl)) Hp) as [E1 E2].
  destruct (IH _ Nl (fun b Hb => Q b (or_intror Hb)) (act_well a w Na W) E1) as [F1 F2].
  split; [exact F1|]. rewrite F2. exact E2.
Qed.

(** The image [i] belonged to [p] and to nobody else. *)
Definition was (p : Z) (i : nat) (w : world) : Prop :=
  well w /\ (i < w_next w)%nat /\ forall q, In (q, i) (w_tasks w) -> q = p.
Lemma was_start p i w : well w -> image_of p (w_tasks w) = Some i -> was p i w.
Proof.
  intros W Hp. split; [exact W|]. pose proof (image_in _ _ _ Hp) as Hi. split; [exact (proj2 (proj2 W) _ _ Hi)|].
  intros q Hq. destruct W as (_ & W2 & _). revert W2 Hi Hq. generalize (w_tasks w). clear.
  induction l as [|[x y] l IH]; cbn; [intros _ []|]. intros N [E1|I1] [E2|I2]; inversion N as [|? ? N1 N2]; subst.
  - congruence.
  - injection E1 as -> ->. destruct N1. exact (in_map snd _ _ I2).
  - injection E2 as -> ->. destruct N1. exact (in_map snd _ _ I1).
  - exact (IH N2 I1 I2).
Qed.
Lemma was_acts p i w held l : (forall a, In a l -> ~ shares a) -> was p i w -> was p i (acts held l w).
Proof.
  intros Ns (W & Hl & U). split; [apply acts_well; assumption|]. pose proof (acts_next held l w). split; [lia|].
  intros q Hq. apply U. exact (acts_users held l w q i Ns Hl Hq).
Qed.
Lemma was_alive p i w : was p i w -> alive w i = true -> image_of p (w_tasks w) = Some i.
Proof.
  intros (W & _ & U) A. apply alive_in in A. destruct A as (q & Hq). pose proof (U q Hq). subst q.
  exact (in_image _ _ _ (proj1 W) Hq).
Qed.
Definition gone (i : nat) (w : world) : Prop := well w /\ (i < w_next w)%nat /\ forall q, ~ In (q, i) (w_tasks w).
Lemma gone_acts i w held l : (forall a, In a l -> ~ shares a) -> gone i w -> gone i (acts held l w).
Proof.
  intros Ns (W & Hl & U). split; [apply acts_well; assumption|]. pose proof (acts_next held l w). split; [lia|].
  intros q Hq. exact (U q (acts_users held l w q i Ns Hl Hq)).
Qed.
Lemma gone_dead i w : gone i w -> alive w i = false.
Proof.
  intros (_ & _ & U). destruct (alive w i) eqn:A; [|reflexivity]. apply alive_in in A. destruct A as (q & Hq).
  destruct (U q Hq).
Qed.
Lemma was_gone p i j w : was p i w -> image_of p (w_tasks w) = Some j -> i <> j -> gone i w.
Proof.
  intros (W & Hl & U) Hp N. split; [exact W|]. split; [exact Hl|]. intros q Hq. pose proof (U q Hq). subst q.
  pose proof (in_image _ _ _ (proj1 W) Hq). congruence.
Qed.

Definition clean (l : list act) : Prop := forall a, In a l -> ~ shares a.
Lemma clean_hd env : no_sharing env -> clean (hd [] env).
Proof.
  intros H a Ha S. destruct env as [|l env]; [destruct Ha|]. destruct a; cbn in S; try contradiction.
  exact (H l pid from (or_introl eq_refl) Ha).
Qed.
Lemma no_sharing_tl env : no_sharing env -> no_sharing (tl env).
Proof. intros H l p q Hl. apply H. destruct env; [destruct Hl|right; exact Hl]. Qed.

(** Nothing the tool's reading does hits a mapping; the steps that do not place keep [t_hit]. *)
Definition placing (x : tstep) : bool := match x with TPlace _ => true | _ => false end.
Lemma step_hit pg D pid x w t ok w' t' : placing x = false -> tstep_do pg D pid x w t = (ok, w', t') ->
  t_hit t' = t_hit t.
Proof.
  destruct x; cbn; intros E H; try discriminate E;
  repeat match type of H with
  | context[match image_of ?a ?b with _ => _ end] => destruct (image_of a b)
  | context[match t_maps t with _ => _ end] => destruct (t_maps t)
  | context[match t_mem t with _ => _ end] => destruct (t_mem t)
  | context[match ?z with [] => _ | _ => _ end] => destruct z
  end; inversion H; reflexivity.
Qed.
Lemma run_app pg D pid l1 : forall env l2 w t,
  run pg D pid env (l1 ++ l2) w t =
  let '(ok, w1, t1) := run pg D pid env l1 w t in
  if ok then run pg D pid (skipn (length l1) env) l2 w1 t1 else (false, w1, t1).
Proof.
  induction l1 as [|x l1 IH]; intros env l2 w t; [reflexivity|].
  cbn [app run length]. destruct (tstep_do pg D pid x _ t) as [[ok w2] t2]. destruct ok; [|reflexivity].
  rewrite IH. destruct env; cbn [tl skipn]; [rewrite skipn_nil|]; reflexivity.
Qed.
Lemma run_hit pg D pid l : forall env w t ok w' t', existsb placing l = false ->
  run pg D pid env l w t = (ok, w', t') -> t_hit t' = t_hit t.
Proof.
  induction l as [|x l IH]; intros env w t ok w' t' E H; cbn in *; [inversion H; reflexivity|].
  apply orb_false_elim in E. destruct E as [E1 E2].
  destruct (tstep_do pg D pid x _ t) as [[o w2] t2] eqn:Q. pose proof (step_hit _ _ _ _ _ _ _ _ _ E1 Q) as S.
  destruct o; [rewrite (IH _ _ _ _ _ _ E2 H); exact S|]. inversion H; subst. exact S.
Qed.

(** The map descriptor belongs to image [i], which was the process's; the memory descriptor
    too, unless the image is gone. *)
Definition linked (pid : Z) (i : nat) (w : world) (t : tool) : Prop :=
  was pid i w /\ t_maps t = Some i /\ (gone i w \/ t_mem t = Some i).
Lemma linked_acts pid i w t held l : clean l -> linked pid i w t -> linked pid i (acts held l w) t.
Proof.
  intros C (H1 & H2 & H3). split; [apply was_acts; assumption|]. split; [exact H2|].
  destruct H3 as [G|M]; [left; apply gone_acts; assumption|right; exact M].
Qed.
Lemma lock_do pg D pid w t w' t' : well w -> tstep_do pg D pid TLock w t = (true, w', t') ->
  exists i, w' = w /\ image_of pid (w_tasks w) = Some i /\ was pid i w /\ t_maps t' = Some i /\ t_mem t' = t_mem t /\
            t_held t' = t_held t /\ t_read t' = t_read t.
Proof.
  cbn. destruct (image_of pid (w_tasks w)) as [i|] eqn:E; intros W H; inversion H; subst.
  exists i. cbn. repeat split; try reflexivity; try (apply W). apply (was_start pid i w' W E). apply (was_start pid i w' W E).
Qed.
Lemma mem_do pg D pid w t w' t' : tstep_do pg D pid TMem w t = (true, w', t') ->
  exists i, w' = w /\ image_of pid (w_tasks w) = Some i /\ t_mem t' = Some i /\ t_maps t' = t_maps t /\
            t_held t' = t_held t /\ t_read t' = t_read t.
Proof.
  cbn. destruct (image_of pid (w_tasks w)) as [i|] eqn:E; intros H; inversion H; subst. exists i. repeat split.
Qed.
Lemma stop_do pg D pid w t w' t' : tstep_do pg D pid TStop w t = (true, w', t') ->
  w' = w /\ t_held t' = true /\ t_maps t' = t_maps t /\ t_mem t' = t_mem t /\ t_read t' = t_read t.
Proof.
  cbn. destruct (image_of pid (w_tasks w)) as [i|] eqn:E; intros H; inversion H; subst. repeat split.
Qed.
Lemma read_do pg D pid w t w' t' : tstep_do pg D pid TRead w t = (true, w', t') ->
  exists i, t_maps t = Some i /\ w' = w /\ alive w i = true /\ t_read t' = w_maps w i /\ w_maps w i <> [] /\
            t_maps t' = t_maps t /\ t_mem t' = t_mem t /\ t_held t' = t_held t.
Proof.
  intro H. cbn in H. destruct (t_maps t) as [i|] eqn:Em; [|discriminate H]. destruct (alive w i) eqn:A; [|discriminate H].
  destruct (w_maps w i) as [|m l] eqn:E; inversion H; subst. exists i. cbn. rewrite E.
  repeat split; try assumption; try reflexivity. discriminate.
Qed.
Lemma was_mem pg D pid i w t w' t' : was pid i w -> t_maps t = Some i ->
  tstep_do pg D pid TMem w t = (true, w', t') -> w' = w /\ linked pid i w t' /\ t_held t' = t_held t.
Proof.
  intros W M H. destruct (mem_do _ _ _ _ _ _ _ H) as (j & -> & E & M' & K & Hh & _). split; [reflexivity|].
  split; [|exact Hh]. split; [exact W|]. split; [rewrite K; exact M|].
  destruct (Nat.eq_dec i j) as [->|N]; [right; exact M'|left; exact (was_gone pid i j w W E N)].
Qed.
Lemma linked_stop pg D pid i w t w' t' : linked pid i w t -> tstep_do pg D pid TStop w t = (true, w', t') ->
  w' = w /\ linked pid i w t' /\ t_held t' = true.
Proof.
  intros (L1 & L2 & L3) H. destruct (stop_do _ _ _ _ _ _ _ H) as (-> & Hh & E1 & E2 & _).
  split; [reflexivity|]. split; [|exact Hh]. split; [exact L1|]. split; [congruence|].
  destruct L3 as [G|M]; [left; exact G|right; congruence].
Qed.
Lemma linked_read pg D pid i w t w' t' : linked pid i w t -> tstep_do pg D pid TRead w t = (true, w', t') ->
  w' = w /\ image_of pid (w_tasks w) = Some i /\ t_maps t' = Some i /\ t_mem t' = Some i /\
  t_read t' = w_maps w i /\ t_held t' = t_held t /\ w_maps w i <> [].
Proof.
  intros (L1 & L2 & L3) H. destruct (read_do _ _ _ _ _ _ _ H) as (j & E1 & -> & A & R & Ne & F1 & F2 & F3).
  assert (j = i) by congruence. subst j.
  pose proof (was_alive pid i w L1 A) as Hp.
  destruct L3 as [G|M]; [apply gone_dead in G; congruence|].
  repeat split; try assumption; try congruence.
Qed.

Lemma triple {A B C} (a a' : A) (b b' : B) (c c' : C) : (a, b, c) = (a', b', c') -> b' = b /\ c' = c.
Proof. intro H. inversion H. split; reflexivity. Qed.

(** One step of [run]. *)
Lemma run_cons pg D pid env x l w t w' t' : run pg D pid env (x :: l) w t = (true, w', t') ->
  exists w1 t1, tstep_do pg D pid x (acts (if t_held t then Some pid else None) (hd [] env) w) t = (true, w1, t1) /\
    run pg D pid (tl env) l w1 t1 = (true, w', t').
Proof.
  cbn [run]. destruct (tstep_do pg D pid x _ t) as [[ok w1] t1]. destruct ok; [|discriminate].
  intro H. exists w1, t1. split; [reflexivity|exact H].
Qed.

Section Ops.
Variables (pg D pid : Z).

Lemma start_linked env l w w' t' : well w -> no_sharing env ->
  run pg D pid env (TLock :: TMem :: l) w tool0 = (true, w', t') ->
  exists i w1 t1, linked pid i w1 t1 /\ t_held t1 = false /\ run pg D pid (tl (tl env)) l w1 t1 = (true, w', t').
Proof.
  intros W N H. apply run_cons in H. destruct H as (w1 & t1 & S1 & H). cbn [t_held tool0] in S1.
  pose proof (clean_hd _ N) as C1. pose proof (no_sharing_tl _ N) as N2. pose proof (clean_hd _ N2) as C2.
  destruct (lock_do _ _ _ _ _ _ _ (acts_well None _ _ C1 W) S1) as (i & -> & _ & W1 & M1 & _ & Hh & _).
  apply run_cons in H. destruct H as (w2 & t2 & S2 & H).
  destruct (was_mem _ _ _ i _ _ _ _ (was_acts pid i _ _ _ C2 W1) M1 S2) as (-> & L & Hh2).
  exists i, (acts (if t_held t1 then Some pid else None) (hd [] (tl env)) (acts None (hd [] env) w)), t2.
  split; [exact L|]. split; [|exact H]. rewrite Hh2, Hh. reflexivity.
Qed.
(** Attaching keeps the link. *)
Lemma attach_linked i env l w t w' t' : no_sharing env -> linked pid i w t ->
  run pg D pid env (attach_steps ++ l) w t = (true, w', t') ->
  exists w1 t1, linked pid i w1 t1 /\ t_held t1 = true /\ run pg D pid (tl (tl env)) l w1 t1 = (true, w', t').
Proof.
  intros N L H. cbn [attach_steps app] in H. apply run_cons in H. destruct H as (w1 & t1 & S1 & H).
  pose proof (clean_hd _ N) as C1. pose proof (no_sharing_tl _ N) as N2. pose proof (clean_hd _ N2) as C2.
  pose proof (linked_acts pid i w t (if t_held t then Some pid else None) _ C1 L) as L1.
  destruct (was_mem _ _ _ i _ _ _ _ (proj1 L1) (proj1 (proj2 L1)) S1) as (-> & L2 & _).
  apply run_cons in H. destruct H as (w2 & t2 & S2 & H).
  pose proof (linked_acts pid i _ t1 (if t_held t1 then Some pid else None) _ C2 L2) as L3.
  destruct (linked_stop _ _ _ i _ _ _ _ L3 S2) as (-> & L4 & Hh).
  eexists. eexists. split; [exact L4|]. split; [exact Hh|exact H].
Qed.
(** What is read while the process is stopped is of the process as it is. *)
Lemma read_current i env l w t w' t' : no_sharing env -> linked pid i w t -> t_held t = true ->
  run pg D pid env (TRead :: l) w t = (true, w', t') ->
  exists w1 t1, well w1 /\ current pid w1 t1 /\ t_read t1 <> [] /\ run pg D pid (tl env) l w1 t1 = (true, w', t').
Proof.
  intros N L Hh H. apply run_cons in H. destruct H as (w1 & t1 & S1 & H).
  pose proof (clean_hd _ N) as C1.
  pose proof (linked_acts pid i w t (if t_held t then Some pid else None) _ C1 L) as L1.
  destruct (linked_read _ _ _ i _ _ _ _ L1 S1) as (-> & E1 & E2 & E3 & E4 & E5 & E6).
  eexists. eexists. split; [exact (proj1 (proj1 L1))|]. split; [|split; [rewrite E4; exact E6|exact H]].
  exists i. repeat split; try assumption. rewrite E5. exact Hh.
Qed.
Lemma current_acts w t l : clean l -> well w -> current pid w t -> current pid (acts (Some pid) l w) t.
Proof.
  intros C W (i & E1 & E2 & E3 & E4 & E5). destruct (acts_held l w pid i C W E1) as [F1 F2].
  exists i. repeat split; try assumption. rewrite F2. exact E4.
Qed.
Lemma current_held w t : current pid w t -> (if t_held t then Some pid else None) = Some pid.
Proof. intros (i & _ & _ & _ & _ & E). rewrite E. reflexivity. Qed.
(** Attaching once more changes nothing. *)
Lemma attach_current env w t w' t' : no_sharing env -> well w -> current pid w t ->
  run pg D pid env attach_steps w t = (true, w', t') -> well w' /\ current pid w' t' /\ t_read t' = t_read t.
Proof.
  intros N W C H. unfold attach_steps in H. apply run_cons in H. destruct H as (w1 & t1 & S1 & H).
  rewrite (current_held _ _ C) in S1.
  pose proof (clean_hd _ N) as C1. pose proof (no_sharing_tl _ N) as N2. pose proof (clean_hd _ N2) as C2.
  pose proof (current_acts _ _ _ C1 W C) as K1. pose proof (acts_well (Some pid) _ _ C1 W) as W1.
  destruct (mem_do _ _ _ _ _ _ _ S1) as (j & -> & E & M & A1 & A2 & A3).
  assert (K2 : current pid (acts (Some pid) (hd [] env) w) t1).
  { destruct K1 as (i & E1 & E2 & E3 & E4 & E5). assert (j = i) by congruence. subst j.
    exists i. repeat split; try assumption; congruence. }
  apply run_cons in H. destruct H as (w2 & t2 & S2 & H). rewrite (current_held _ _ K2) in S2.
  pose proof (current_acts _ _ _ C2 W1 K2) as K3. pose proof (acts_well (Some pid) _ _ C2 W1) as W2.
  destruct (stop_do _ _ _ _ _ _ _ S2) as (-> & B1 & B2 & B3 & B4).
  cbn in H. inversion H; subst. split; [exact W2|]. split; [|congruence].
  destruct K3 as (i & E1 & E2 & E3 & E4 & E5). exists i. repeat split; try assumption; congruence.
Qed.

Lemma unpatch_current env w w' t' : well w -> no_sharing env ->
  run pg D pid env unpatch_steps w tool0 = (true, w', t') -> well w' /\ current pid w' t' /\ t_read t' <> [].
Proof.
  intros W N H. unfold unpatch_steps, attach_steps in H. cbn [app] in H.
  destruct (start_linked _ _ _ _ _ W N H) as (i & w1 & t1 & L1 & _ & H1). clear H.
  pose proof (no_sharing_tl _ (no_sharing_tl _ N)) as N2.
  apply run_cons in H1. destruct H1 as (w2 & t2 & S2 & H).
  pose proof (linked_acts pid i w1 t1 (if t_held t1 then Some pid else None) _ (clean_hd _ N2) L1) as L2.
  destruct (linked_stop _ _ _ i _ _ _ _ L2 S2) as (-> & L3 & Hh).
  destruct (read_current i _ [] _ _ _ _ (no_sharing_tl _ N2) L3 Hh H) as (w3 & t3 & W3 & K & Ne & H3).
  cbn in H3. inversion H3; subst. split; [exact W3|]. split; assumption.
Qed.

Lemma started_current send lx lr env w w' t' : well w -> no_sharing env ->
  run pg D pid env (patch_steps true send lx lr) w tool0 = (true, w', t') ->
  well w' /\ current pid w' t' /\ t_read t' <> [].
Proof.
  intros W N H. unfold patch_steps in H. cbn [app] in H. rewrite <- app_assoc in H.
  destruct (start_linked _ _ _ _ _ W N H) as (i & w1 & t1 & L1 & _ & H1). clear H.
  pose proof (no_sharing_tl _ (no_sharing_tl _ N)) as N2. set (env2 := tl (tl env)) in *. clearbody env2.
  destruct (attach_linked i _ _ _ _ _ _ N2 L1 H1) as (w2 & t2 & L2 & Hh & H2). clear H1 L1.
  pose proof (no_sharing_tl _ (no_sharing_tl _ N2)) as N3. set (env3 := tl (tl env2)) in *. clearbody env3.
  assert (X : exists k w3 t3 env4, no_sharing env4 /\ linked pid k w3 t3 /\ t_held t3 = true /\
    run pg D pid env4 (TRun lr :: TRead :: attach_steps) w3 t3 = (true, w', t')).
  { destruct send.
    - cbn [app] in H2. apply run_cons in H2. destruct H2 as (w3 & t3 & S3 & H3).
      rewrite Hh in S3. unfold tstep_do in S3. apply triple in S3. destruct S3 as [-> ->].
      pose proof (acts_well (Some pid) _ _ (clean_hd _ N3) (proj1 (proj1 L2))) as W2.
      assert (W3 : well (act_do (AExec pid lx) (acts (Some pid) (hd [] env3) w2))) by (apply act_well; [intros []|exact W2]).
      set (w3 := act_do (AExec pid lx) (acts (Some pid) (hd [] env3) w2)) in *. clearbody w3. clear W2.
      pose proof (no_sharing_tl _ N3) as N4. pose proof (clean_hd _ N4) as C4. set (env4 := tl env3) in *. clearbody env4.
      apply run_cons in H3. destruct H3 as (w4 & t4 & S4 & H4). rewrite Hh in S4.
      destruct (mem_do _ _ _ _ _ _ _ S4) as (j & -> & Ej & Mj & _ & Hh4 & _).
      pose proof (acts_well (Some pid) _ _ C4 W3) as W4.
      set (w4 := acts (Some pid) (hd [] env4) w3) in *. clearbody w4.
      pose proof (no_sharing_tl _ N4) as N5. pose proof (clean_hd _ N5) as C5. set (env5 := tl env4) in *. clearbody env5.
      apply run_cons in H4. destruct H4 as (w5 & t5 & S5 & H5). rewrite Hh4, Hh in S5.
      pose proof (acts_well (Some pid) _ _ C5 W4) as W5.
      destruct (acts_held (hd [] env5) w4 pid j C5 W4 Ej) as [Ej5 _].
      destruct (lock_do _ _ _ _ _ _ _ W5 S5) as (k & -> & Ek & Wk & Mk & Me & Hh5 & _).
      assert (k = j) by congruence. subst k.
      exists j, (acts (Some pid) (hd [] env5) w4), t5, (tl env5). split; [exact (no_sharing_tl _ N5)|].
      split; [|split; [congruence|exact H5]]. split; [exact Wk|]. split; [exact Mk|]. right. congruence.
    - exists i, w2, t2, env3. split; [exact N3|]. split; [exact L2|]. split; [exact Hh|exact H2]. }
  clear - X. destruct X as (k & w3 & t3 & env4 & N & L & Hh & H).
  apply run_cons in H. destruct H as (w4 & t4 & S4 & H). unfold tstep_do in S4. apply triple in S4. destruct S4 as [-> ->].
  pose proof (linked_acts pid k w3 t3 (if t_held t3 then Some pid else None) _ (clean_hd _ N) L) as L1.
  assert (L2 : linked pid k (act_do (AMap pid lr) (acts (if t_held t3 then Some pid else None) (hd [] env4) w3)) t3).
  { exact (linked_acts pid k _ t3 None [AMap pid lr] ltac:(intros a [<-|[]]; intros []) L1). }
  pose proof (no_sharing_tl _ N) as N2.
  destruct (read_current k _ _ _ _ _ _ N2 L2 Hh H) as (w5 & t5 & W5 & K & Ne & H5).
  destruct (attach_current _ _ _ _ _ (no_sharing_tl _ N2) W5 K H5) as (W6 & K6 & E6).
  split; [exact W6|]. split; [exact K6|]. congruence.
Qed.

Lemma running_read env l w w' t' : well w -> no_sharing env ->
  run pg D pid env (TLock :: TMem :: TRead :: l) w tool0 = (true, w', t') ->
  exists i w1 t1, well w1 /\ image_of pid (w_tasks w1) = Some i /\ t_maps t1 = Some i /\ t_mem t1 = Some i /\
    t_read t1 = w_maps w1 i /\ t_held t1 = false /\ t_read t1 <> [] /\
    run pg D pid (tl (tl (tl env))) l w1 t1 = (true, w', t').
Proof.
  intros W N H. destruct (start_linked _ _ _ _ _ W N H) as (i & w1 & t1 & L1 & Hh & H1). clear H.
  pose proof (no_sharing_tl _ (no_sharing_tl _ N)) as N2. set (env2 := tl (tl env)) in *. clearbody env2.
  apply run_cons in H1. destruct H1 as (w2 & t2 & S2 & H).
  pose proof (linked_acts pid i w1 t1 (if t_held t1 then Some pid else None) _ (clean_hd _ N2) L1) as L2.
  destruct (linked_read _ _ _ i _ _ _ _ L2 S2) as (-> & E1 & E2 & E3 & E4 & E5 & E6).
  eexists i, _, t2. split; [exact (proj1 (proj1 L2))|]. repeat split; try eassumption; try congruence.
Qed.

Lemma nth_tl {X} (d : X) l n : nth n (tl l) d = nth (S n) l d.
Proof. destruct l; [destruct n; reflexivity|reflexivity]. Qed.
Lemma hd_nth {X} (d : X) l : hd d l = nth 0 l d.
Proof. destruct l; reflexivity. Qed.

Lemma running_current send lx lr env w w' t' : well w -> no_sharing env ->
  quiet pid (nth 3 env []) -> quiet pid (nth 4 env []) ->
  run pg D pid env (patch_steps false send lx lr) w tool0 = (true, w', t') ->
  well w' /\ current pid w' t' /\ t_read t' <> [].
Proof.
  intros W N Q3 Q4 H. unfold patch_steps in H. cbn [app] in H.
  destruct (running_read _ _ _ _ _ W N H) as (i & w1 & t1 & W1 & E1 & E2 & E3 & E4 & E5 & E6 & H1). clear H.
  pose proof (no_sharing_tl _ (no_sharing_tl _ (no_sharing_tl _ N))) as N3.
  rewrite <- !nth_tl in Q3. rewrite <- !nth_tl in Q4.
  set (env3 := tl (tl (tl env))) in *. clearbody env3. rewrite <- hd_nth in Q3. rewrite nth_tl in Q4.
  rewrite <- nth_tl, <- hd_nth in Q4.
  unfold attach_steps in H1. apply run_cons in H1. destruct H1 as (w2 & t2 & S2 & H2). rewrite E5 in S2.
  destruct (acts_quiet _ _ pid i (clean_hd _ N3) Q3 W1 E1) as [F1 F2].
  pose proof (acts_well None _ _ (clean_hd _ N3) W1) as W2.
  destruct (mem_do _ _ _ _ _ _ _ S2) as (j & -> & Ej & Mj & A1 & A2 & A3). assert (j = i) by congruence. subst j.
  set (w2 := acts None (hd [] env3) w1) in *. clearbody w2.
  pose proof (no_sharing_tl _ N3) as N4. set (env4 := tl env3) in *. clearbody env4.
  apply run_cons in H2. destruct H2 as (w3 & t3 & S3 & H3). rewrite A2, E5 in S3.
  destruct (acts_quiet _ _ pid i (clean_hd _ N4) Q4 W2 F1) as [G1 G2].
  pose proof (acts_well None _ _ (clean_hd _ N4) W2) as W3.
  destruct (stop_do _ _ _ _ _ _ _ S3) as (-> & B1 & B2 & B3 & B4).
  cbn in H3. inversion H3; subst. split; [exact W3|]. split; [|congruence].
  exists i. repeat split; try assumption; congruence.
Qed.
End Ops.

(** ** Placing patches in a map that is as it was read. *)
Lemma maps_ok_lt pg lo maps s e : maps_ok pg lo maps -> In (s, e) maps -> s < e.
Proof.
  revert lo. induction maps as [|[a b] l IH]; intros lo H Hi; [destruct Hi|]. cbn in H.
  destruct H as (_ & H1 & _ & _ & _ & H2). destruct Hi as [E|Hi]; [injection E as <- <-; exact H1|exact (IH _ H2 Hi)].
Qed.
Lemma apart_no_hit pg a b own : 0 < pg -> (forall u, In u own -> apart pg (a, b) u) ->
  flat_map (cut a b) own = own /\ filter (overlaps a b) own = [].
Proof.
  intros Hpg. induction own as [|m own IH]; intro H; [split; reflexivity|]. cbn [flat_map filter].
  assert (O : overlaps a b m = false).
  { unfold overlaps. destruct (H m (or_introl eq_refl)) as [X|X]; cbn in X; apply andb_false_iff.
    - left. apply Z.ltb_ge. lia.
    - right. apply Z.ltb_ge. lia. }
  unfold cut at 1. rewrite O. destruct (IH (fun u Hu => H u (or_intror Hu))) as [-> ->]. split; reflexivity.
Qed.
Lemma place_all_free pg D maps l : page_ok pg -> maps_ok pg 0 maps -> forall sp hit ok own' hit', placed pg D maps sp ->
  fits pg D maps sp l -> place_all pg D sp maps hit l = (ok, own', hit') -> own' = maps /\ hit' = hit.
Proof.
  intros Hpg Hm. induction l as [|r l IH]; intros sp hit ok own' hit' P F H.
  - cbn in H. inversion H. split; reflexivity.
  - cbn [place_all fits] in *. destruct F as ((mask & F1 & F2 & F3 & F4) & F5 & F6 & F7 & F8).
    destruct (place pg D sp r) as [[a|] sp'] eqn:E; [|inversion H; split; reflexivity].
    cbn [snd] in F8.
    destruct (placed_next pg D maps sp r a sp' mask Hpg Hm P F1 F2 F3 F4 F5 F6 F7 E) as (_ & _ & AP & _).
    destruct (placed_apart pg D maps sp Hpg Hm P) as (patches & U & _).
    destruct (apart_no_hit pg a (a + rq_sz r) maps) as [E1 E2].
    { destruct Hpg as (k & Hk & ->). apply Z.pow_pos_nonneg; lia. }
    { intros [s e] Hu. apply AP; [rewrite U; apply in_or_app; right; exact Hu|]. cbn. exact (maps_ok_lt _ _ _ _ _ Hm Hu). }
    rewrite E1, E2, app_nil_r in H.
    apply (IH sp' hit ok own' hit'); [|exact F8|exact H].
    exact (placed_step pg D maps sp r (Some a) sp' mask P F1 F2 F3 F4 F5 F6 F7 E).
Qed.

Lemma no_sharing_skipn n env : no_sharing env -> no_sharing (skipn n env).
Proof.
  revert env. induction n as [|n IH]; intros env H; [exact H|]. destruct env as [|l env]; [exact H|].
  exact (IH env (no_sharing_tl _ H)).
Qed.

Section Place.
Variables (pg D pid : Z).
Hypothesis Hpg : page_ok pg.

Lemma place_then_write env w t reqs ok w' t' : no_sharing env -> well w -> current pid w t -> t_hit t = [] ->
  maps_ok pg 0 (t_read t) -> fits pg D (t_read t) (start_space pg (t_read t)) reqs ->
  run pg D pid env [TPlace reqs; TWrite] w t = (ok, w', t') ->
  t_hit t' = [] /\ current pid w' t' /\ t_read t' = t_read t.
Proof.
  intros N W K Ht Hm F H. cbn [run] in H. rewrite (current_held _ _ _ K) in H.
  pose proof (clean_hd _ N) as C1. pose proof (clean_hd _ (no_sharing_tl _ N)) as C2.
  pose proof (current_acts pid _ _ _ C1 W K) as K1. pose proof (acts_well (Some pid) _ _ C1 W) as W1.
  set (w1 := acts (Some pid) (hd [] env) w) in *. clearbody w1. clear K.
  destruct K1 as (i & E1 & E2 & E3 & E4 & E5).
  unfold tstep_do in H at 1. rewrite E1 in H.
  destruct (place_all pg D _ _ [] reqs) as [[o own] hit] eqn:P.
  rewrite <- E4 in P.
  destruct (place_all_free pg D (t_read t) reqs Hpg Hm _ _ _ _ _ (placed_none pg D (t_read t)) F P) as [Q1 Q2].
  set (wp := {| w_tasks := w_tasks w1; w_maps := set_image (w_maps w1) i own; w_next := w_next w1 |}) in *.
  set (tp := {| t_maps := t_maps t; t_mem := t_mem t; t_held := t_held t; t_read := t_read t; t_hit := t_hit t ++ hit |}) in *.
  assert (Kp : current pid wp tp).
  { exists i. unfold wp, tp, set_image; cbn. rewrite Nat.eqb_refl. repeat split; try assumption. congruence. }
  assert (Wp : well wp) by exact W1.
  assert (Hp : t_hit tp = []) by (unfold tp; cbn; rewrite Ht, Q2; reflexivity).
  assert (Rp : t_read tp = t_read t) by reflexivity.
  clearbody wp tp. destruct o.
  - rewrite (current_held _ _ _ Kp) in H. pose proof (current_acts pid _ _ _ C2 Wp Kp) as K2.
    set (w2 := acts (Some pid) (hd [] (tl env)) wp) in *. clearbody w2.
    cbn [tstep_do] in H. destruct (t_mem tp) as [m|] eqn:Em.
    + destruct (alive w2 m); inversion H; subst; repeat split; assumption.
    + inversion H; subst; repeat split; assumption.
  - inversion H; subst. repeat split; assumption.
Qed.

Lemma op_safe l env w reqs ok w' t' : no_sharing env -> existsb placing l = false ->
  (forall w1 t1, run pg D pid env l w tool0 = (true, w1, t1) -> well w1 /\ current pid w1 t1 /\ t_read t1 <> []) ->
  run pg D pid env (l ++ [TPlace reqs; TWrite]) w tool0 = (ok, w', t') ->
  maps_ok pg 0 (t_read t') -> fits pg D (t_read t') (start_space pg (t_read t')) reqs ->
  t_hit t' = [] /\ (ok = true -> current pid w' t').
Proof.
  intros N NP H HR. rewrite run_app in HR.
  destruct (run pg D pid env l w tool0) as [[o w1] t1] eqn:R.
  pose proof (run_hit _ _ _ _ _ _ _ _ _ _ NP R) as Ht. cbn in Ht.
  destruct o.
  - destruct (H _ _ eq_refl) as (W1 & K1 & _). intros Hm F.
    assert (RR : t_read t' = t_read t1).
    { clear - HR. cbn [run] in HR.
      destruct (tstep_do pg D pid (TPlace reqs) _ t1) as [[o2 w2] t2] eqn:S.
      assert (A : t_read t2 = t_read t1).
      { unfold tstep_do in S. destruct (image_of pid _); [|inversion S; reflexivity].
        destruct (place_all _ _ _ _ _ _) as [[? ?] ?]. inversion S. reflexivity. }
      destruct o2; [|inversion HR; subst; exact A].
      destruct (tstep_do pg D pid TWrite _ t2) as [[o3 w3] t3] eqn:S3.
      assert (B : t_read t3 = t_read t2).
      { unfold tstep_do in S3. destruct (t_mem t2); inversion S3; reflexivity. }
      destruct o3; inversion HR; subst; congruence. }
    rewrite RR in Hm, F.
    destruct (place_then_write _ _ _ _ _ _ _ (no_sharing_skipn (length l) _ N) W1 K1 Ht Hm F HR) as (Q1 & Q2 & _).
    split; [exact Q1|]. intros _. exact Q2.
  - inversion HR; subst. intros _ _. split; [exact Ht|discriminate].
Qed.
End Place.

(** ** What MAP_FIXED takes away. *)
Lemma cut_unmapped a b m x : unmapped (cut a b m) x <-> unmapped [m] x \/ (a <= x < b).
Proof.
  destruct m as [s e]. unfold cut, overlaps. cbn [fst snd].
  assert (U1 : unmapped [(s, e)] x <-> ~ (s <= x < e)).
  { split; [intro H; apply H; left; reflexivity|]. intros H s' e' [E|[]]. injection E as <- <-. exact H. }
  destruct (Z.ltb_spec s b), (Z.ltb_spec a e); cbn [andb].
  2,3,4: rewrite U1; lia.
  rewrite U1. split.
  - intro H1. destruct (Z_le_dec a x), (Z_lt_dec x b); [right; lia| | |].
    + left. intro C. apply (H1 b e); [|lia]. apply in_or_app. right. destruct (Z.ltb_spec b e); [left; reflexivity|lia].
    + left. intro C. apply (H1 s a); [|lia]. apply in_or_app. left. destruct (Z.ltb_spec s a); [left; reflexivity|lia].
    + left. intro C. apply (H1 s a); [|lia]. apply in_or_app. left. destruct (Z.ltb_spec s a); [left; reflexivity|lia].
  - intros H1 s' e' Hi C. apply in_app_or in Hi.
    destruct Hi as [Hi|Hi]; [destruct (s <? a)|destruct (b <? e)];
    [destruct Hi as [E|[]]; injection E as <- <-; lia|destruct Hi|destruct Hi as [E|[]]; injection E as <- <-; lia|destruct Hi].
Qed.
Lemma flat_cut_unmapped a b own x : unmapped (flat_map (cut a b) own) x <-> unmapped own x \/ (a <= x < b).
Proof.
  induction own as [|m own IH]; [split; [intros _; left; intros s e []|intros _ s e []]|].
  assert (S : forall l1 l2, unmapped (l1 ++ l2) x <-> unmapped l1 x /\ unmapped l2 x).
  { intros l1 l2. split.
    - intro H. split; intros s e Hi; apply H; apply in_or_app; auto.
    - intros (H1 & H2) s e Hi. apply in_app_or in Hi. destruct Hi as [Hi|Hi]; [apply H1|apply H2]; exact Hi. }
  change (m :: own) with ([m] ++ own). cbn [flat_map app]. rewrite S, cut_unmapped, IH.
  change (m :: own) with ([m] ++ own). rewrite S. tauto.
Qed.
Lemma place_all_lost pg D l : forall sp own hit ok own' hit', place_all pg D sp own hit l = (ok, own', hit') ->
  exists rs, (forall a b, In (a, b) rs -> exists r, In r l /\ b = a + rq_sz r) /\
    (ok = true -> map (fun q => snd q - fst q) rs = map rq_sz l) /\
    (forall x, unmapped own' x <-> unmapped own x \/ exists a b, In (a, b) rs /\ a <= x < b) /\
    incl hit hit' /\
    (forall x, ~ unmapped own x -> unmapped own' x -> exists m, In m hit' /\ fst m <= x < snd m).
Proof.
  induction l as [|r l IH]; intros sp own hit ok own' hit' H; cbn [place_all] in H.
  - inversion H; subst. exists []. split; [intros a b []|]. split; [reflexivity|]. split; [intro x; split; [auto|intros [U|(a & b & [] & _)]; exact U]|].
    split; [apply incl_refl|]. intros x N U. contradiction.
  - destruct (place pg D sp r) as [[a|] sp'].
    2: { inversion H; subst. exists []. split; [intros a b []|]. split; [discriminate|].
         split; [intro x; split; [auto|intros [U|(a & b & [] & _)]; exact U]|]. split; [apply incl_refl|]. intros x N U. contradiction. }
    destruct (IH _ _ _ _ _ _ H) as (rs & R1 & R2 & R3 & R4 & R5). exists ((a, a + rq_sz r) :: rs).
    split; [intros p q [E|Hi]; [injection E as <- <-; exists r; split; [left; reflexivity|reflexivity]|destruct (R1 p q Hi) as (r' & A & B); exists r'; split; [right; exact A|exact B]]|].
    split; [intro O; cbn [map fst snd]; rewrite (R2 O); f_equal; lia|].
    split.
    { intro x. rewrite R3, flat_cut_unmapped. split.
      - intros [[U|C]|(p & q & Hi & C)]; [left; exact U|right; exists a, (a + rq_sz r); split; [left; reflexivity|exact C]|right; exists p, q; split; [right; exact Hi|exact C]].
      - intros [U|(p & q & [E|Hi] & C)]; [left; left; exact U|injection E as <- <-; left; right; exact C|right; exists p, q; auto]. }
    split; [intros m Hm; apply R4; apply in_or_app; left; exact Hm|].
    intros x N U.
    assert (D1 : {a <= x < a + rq_sz r} + {~ (a <= x < a + rq_sz r)}) by (destruct (Z_le_dec a x), (Z_lt_dec x (a + rq_sz r)); [left|right|right|right]; lia).
    destruct D1 as [C|C].
    + assert (X : exists m, In m own /\ fst m <= x < snd m).
      { clear -N. induction own as [|[s e] own IH]; [destruct N; intros s e []|].
        destruct (Z_le_dec s x), (Z_lt_dec x e); [exists (s, e); split; [left; reflexivity|cbn; lia]| | |];
        (destruct IH as (m & Hm & B); [intro U; apply N; intros s' e' [E|Hi]; [injection E as <- <-; lia|apply U; exact Hi]|exists m; split; [right; exact Hm|exact B]]). }
      destruct X as (m & Hm & B). exists m. split; [|exact B]. apply R4. apply in_or_app. right. apply filter_In. split; [exact Hm|].
      unfold overlaps. apply andb_true_iff. rewrite !Z.ltb_lt. lia.
    + apply R5; [|exact U]. intro V. apply flat_cut_unmapped in V. destruct V; contradiction.
Qed.
