From Coq Require Import Permutation.
From Verif Require Import Base BaseProofs DriverModel DriverSpec.

Lemma take_one_perm id : forall l H, Permutation l (id :: H) ->
  exists l', take_one id l = Some l' /\ Permutation l' H.
Proof.
  intros l. induction l as [|x l IH]; intros H P.
  - apply Permutation_nil in P. discriminate.
  - cbn [take_one]. destruct (Nat.eqb_spec x id) as [->|N].
    + exists l. split; [reflexivity|]. exact (Permutation_cons_inv P).
    + assert (I : In x H).
      { pose proof (Permutation_in x P (or_introl eq_refl)) as [E|I]; [congruence|exact I]. }
      apply in_split in I as (a & b & ->).
      assert (P' : Permutation l (id :: a ++ b)).
      { apply (@Permutation_cons_inv _ _ _ x). eapply Permutation_trans; [exact P|].
        eapply Permutation_trans; [apply perm_skip, Permutation_sym, Permutation_middle|]. apply perm_swap. }
      destruct (IH (a ++ b) P') as (l' & E & Pl). rewrite E. exists (x :: l'). split; [reflexivity|].
      eapply Permutation_trans; [apply perm_skip, Pl|]. apply Permutation_middle.
Qed.

Lemma check_app n live a b : check n live (a ++ b) =
  match check n live a with Some (m, l) => check m l b | None => None end.
Proof.
  revert n live. induction a as [|e a IH]; intros n live; [reflexivity|].
  destruct e as [id|id|s r]; cbn [check app].
  - destruct (Nat.eqb id n); [apply IH|reflexivity].
  - destruct (take_one id live); [apply IH|reflexivity].
  - apply IH.
Qed.

(** What is open is [H]. *)
Definition holds (s : dst) (H : list nat) : Prop :=
  exists L, check 0 [] (d_log s) = Some (d_next s, L) /\ Permutation L H.
Lemma holds_perm s H H' : holds s H -> Permutation H H' -> holds s H'.
Proof. intros (L & E & P) Q. exists L. split; [exact E|]. eapply Permutation_trans; eassumption. Qed.
Lemma holds_same s s' H : holds s H -> d_log s' = d_log s -> d_next s' = d_next s -> holds s' H.
Proof. intros (L & E & P) E1 E2. exists L. rewrite E1, E2. auto 12. Qed.
Lemma holds_open s H : holds s H -> holds (snd (open_ s)) (d_next s :: H).
Proof.
  intros (L & E & P). exists (d_next s :: L). cbn [open_ snd d_log d_next]. rewrite check_app, E. cbn [check].
  rewrite Nat.eqb_refl. split; [reflexivity|]. apply perm_skip, P.
Qed.
Lemma holds_close s id H : holds s (id :: H) -> holds (snd (close_ id s)) H.
Proof.
  intros (L & E & P). destruct (take_one_perm id L H P) as (l' & T & Pl). exists l'.
  cbn [close_ emit snd d_log d_next]. rewrite check_app, E. cbn [check]. rewrite T. auto 12.
Qed.
Lemma holds_step s x r H : holds s H -> holds (snd (emit (Step x r) s)) H.
Proof.
  intros (L & E & P). exists L. cbn [emit snd d_log d_next]. rewrite check_app, E. cbn [check]. auto 12.
Qed.

Definition o2l (o : option nat) : list nat := match o with Some x => [x] | None => [] end.
Definition held (s : dst) : list nat := d_maps s :: o2l (d_mem s) ++ o2l (d_coro s) ++ o2l (d_unw s) ++ d_thr s.
Definition inv (s : dst) : Prop := holds s (held s).

Lemma holds_close_opt s o H : holds s (o2l o ++ H) -> holds (snd (close_opt o s)) H.
Proof. destruct o; [apply holds_close|auto 12]. Qed.

(** What closing leaves alone. *)
Definition same_fields (s s' : dst) : Prop :=
  d_maps s' = d_maps s /\ d_mem s' = d_mem s /\ d_coro s' = d_coro s /\ d_unw s' = d_unw s /\ d_thr s' = d_thr s.
Lemma close_opt_fields o s : same_fields s (snd (close_opt o s)).
Proof. destruct o; unfold same_fields; cbn; auto 12. Qed.
Lemma holds_close_all : forall l s H, holds s (l ++ H) -> holds (snd (close_all l s)) H /\ same_fields s (snd (close_all l s)).
Proof.
  induction l as [|id l IH]; intros s H Hh; cbn [close_all].
  - split; [exact Hh|unfold same_fields; cbn; auto 12].
  - cbn [app] in Hh. apply holds_close in Hh. unfold bind.
    change (close_ id s) with (tt, snd (close_ id s)) at 1 2. cbn [fst snd] in *.
    cbn [close_ emit snd] in *. destruct (IH _ _ Hh) as [A B]. split; [exact A|].
    unfold same_fields in *. cbn in B. exact B.
Qed.

Section P.
Variable orc : nat -> Z.

Ltac perm := cbn; repeat rewrite ?app_nil_r; auto 12.

Lemma mem_open_inv s : inv s -> inv (snd (mem_open orc s)) /\
  d_maps (snd (mem_open orc s)) = d_maps s /\ d_coro (snd (mem_open orc s)) = d_coro s /\
  d_unw (snd (mem_open orc s)) = d_unw s /\ d_thr (snd (mem_open orc s)) = d_thr s /\
  (fst (mem_open orc s) = 0 \/ fst (mem_open orc s) = -1).
Proof.
  intros I. unfold mem_open, bind, get. set (s1 := snd (close_opt (d_mem s) s)).
  assert (H1 : holds s1 (d_maps s :: o2l (d_coro s) ++ o2l (d_unw s) ++ d_thr s)).
  { apply holds_close_opt. eapply holds_perm; [exact I|]. unfold held. apply Permutation_middle. }
  assert (F1 : same_fields s s1) by apply close_opt_fields.
  destruct F1 as (F1 & F2 & F3 & F4 & F5).
  destruct (close_opt (d_mem s) s) as [u s1'] eqn:E. cbn [snd] in s1. subst s1.
  cbn [ask]. destruct (orc (d_i s1') <? 0).
  - cbn. unfold inv, held. cbn. rewrite F1, F3, F4, F5. split; [|auto 12].
    eapply holds_same; [exact H1|reflexivity|reflexivity].
  - cbn. unfold inv, held. cbn. rewrite F1, F3, F4, F5. split; [|auto 12].
    eapply holds_perm.
    + eapply (holds_same (snd (open_ {| d_next := d_next s1'; d_i := S (d_i s1'); d_log := d_log s1'; d_maps := d_maps s1';
         d_mem := d_mem s1'; d_coro := d_coro s1'; d_unw := d_unw s1'; d_thr := d_thr s1' |}))); [|reflexivity|reflexivity].
      apply holds_open. eapply holds_same; [exact H1|reflexivity|reflexivity].
    + cbn. apply perm_swap.
Qed.

Lemma detach_spec s : inv s -> holds (snd (detach s)) (d_maps s :: o2l (d_coro s)) /\
  d_maps (snd (detach s)) = d_maps s /\ d_coro (snd (detach s)) = d_coro s /\
  d_unw (snd (detach s)) = d_unw s /\ d_mem (snd (detach s)) = None /\ d_thr (snd (detach s)) = [].
Proof.
  intros I. unfold detach, bind, get.
  pose proof (close_opt_fields (d_mem s) s) as (F1 & F2 & F3 & F4 & F5).
  assert (H1 : holds (snd (close_opt (d_mem s) s)) (d_maps s :: o2l (d_coro s) ++ o2l (d_unw s) ++ d_thr s)).
  { apply holds_close_opt. eapply holds_perm; [exact I|]. unfold held. apply Permutation_middle. }
  destruct (close_opt (d_mem s) s) as [u s1]. cbn [snd] in *. cbn [set_mem].
  set (s2 := {| d_next := d_next s1; d_i := d_i s1; d_log := d_log s1; d_maps := d_maps s1; d_mem := None;
          d_coro := d_coro s1; d_unw := d_unw s1; d_thr := d_thr s1 |}).
  assert (H2 : holds s2 (o2l (d_unw s2) ++ d_thr s ++ d_maps s :: o2l (d_coro s))).
  { eapply holds_same; [|reflexivity|reflexivity]. eapply holds_perm; [exact H1|]. cbn. rewrite F4.
    rewrite app_comm_cons, Permutation_app_comm, <- app_assoc. reflexivity. }
  pose proof (close_opt_fields (d_unw s2) s2) as (G1 & G2 & G3 & G4 & G5).
  apply holds_close_opt in H2.
  destruct (close_opt (d_unw s2) s2) as [u3 s3]. cbn [snd] in *.
  assert (T3 : d_thr s3 = d_thr s) by (rewrite G5; exact F5). rewrite <- T3 in H2.
  destruct (holds_close_all _ _ _ H2) as [H4 (K1 & K2 & K3 & K4 & K5)].
  destruct (close_all (d_thr s3) s3) as [u4 s4]. cbn [snd set_thr] in *. cbn.
  split; [eapply holds_same; [exact H4|reflexivity|reflexivity]|].
  rewrite K1, K2, K3, K4, G1, G2, G3, G4. cbn. rewrite F1, F3, F4. auto 12.
Qed.

Lemma ask_inv s : inv s -> inv (snd (ask orc s)).
Proof. intros I. eapply holds_same; [exact I|reflexivity|reflexivity]. Qed.

Lemma attach_threads_inv : forall n s, inv s -> inv (snd (attach_threads orc n s)) /\
  d_maps (snd (attach_threads orc n s)) = d_maps s /\ d_coro (snd (attach_threads orc n s)) = d_coro s /\
  d_unw (snd (attach_threads orc n s)) = d_unw s.
Proof.
  induction n as [|n IH]; intros s I; cbn [attach_threads]; [cbn; auto|].
  unfold bind, get. cbn [ask]. destruct (orc (d_i s) <? 0).
  - cbn. split; [eapply holds_same; [exact I|reflexivity|reflexivity]|auto 12].
  - cbn [open_ d_next d_i d_log d_maps d_mem d_coro d_unw d_thr set_thr ask].
    match goal with |- context[(if _ then _ else attach_threads orc n) ?x] => set (s3 := x) end.
    assert (I3 : inv s3).
    { unfold inv. apply (holds_perm s3 (d_next s :: held s)).
      - eapply (holds_same (snd (open_ s))); [apply holds_open, I|reflexivity|reflexivity].
      - unfold held, s3. cbn. eapply Permutation_trans; [apply perm_swap|]. apply perm_skip.
        rewrite !app_assoc. apply Permutation_middle. }
    destruct (_ <? 0).
    + cbn. split; [exact I3|auto 12].
    + destruct (IH s3 I3) as (A & B & C & E). split; [exact A|]. rewrite B, C, E. auto 12.
Qed.

Variables just send : bool.

Definition kept (s s' : dst) : Prop :=
  inv s' /\ d_maps s' = d_maps s /\ d_coro s' = d_coro s /\ d_unw s' = d_unw s.
Lemma kept_trans a b c : kept a b -> kept b c -> kept a c.
Proof. unfold kept. intros (A & B & C & E) (A' & B' & C' & E'). rewrite B', C', E'. auto 12. Qed.
Lemma ask_kept s : inv s -> kept s (snd (ask orc s)).
Proof. intros I. split; [apply ask_inv, I|cbn; auto]. Qed.

Lemma attempts_inv : forall left first s, inv s -> kept s (snd (attempts orc just send first left s)).
Proof.
  induction left as [|k IH]; intros first s I; cbn [attempts]; [split; cbn; auto|].
  unfold bind at 1. pose proof (ask_kept s I) as K1.
  destruct (ask orc s) as [np s1]. cbn [snd] in K1. destruct (np =? -1); [exact K1|].
  assert (I1 : inv s1) by apply K1. unfold bind at 1.
  assert (K2 : kept s1 (snd ((if first then ret false else bind (ask orc) (fun x => ret (x =? 0))) s1))).
  { destruct first; [split; cbn; auto|]. unfold bind. pose proof (ask_kept s1 I1) as K.
    destruct (ask orc s1). exact K. }
  destruct ((if first then ret false else bind (ask orc) (fun x => ret (x =? 0))) s1) as [b s2]. cbn [snd] in K2.
  apply (kept_trans _ _ _ K1) in K2. clear K1 I1. assert (I2 : inv s2) by apply K2.
  destruct b; [exact K2|]. destruct (_ && negb send); [exact K2|].
  unfold bind at 1. pose proof (ask_kept s2 I2) as K3.
  destruct (ask orc s2) as [n s3]. cbn [snd] in K3. apply (kept_trans _ _ _ K2) in K3. clear K2 I2.
  assert (I3 : inv s3) by apply K3. unfold bind.
  pose proof (attach_threads_inv (Z.to_nat n) s3 I3 : kept s3 _) as K4.
  destruct (attach_threads orc (Z.to_nat n) s3) as [r s4]. cbn [snd] in K4.
  apply (kept_trans _ _ _ K3) in K4. destruct (r <? 0); [exact K4|].
  apply (kept_trans _ _ _ K4). apply IH, K4.
Qed.

Lemma attach_inv s : inv s -> d_unw s = None -> inv (snd (attach orc just send s)) /\
  (fst (attach orc just send s) = 0 \/ fst (attach orc just send s) = -1).
Proof.
  intros I U. unfold attach, bind. destruct (mem_open_inv s I) as (I1 & _ & _ & U1 & _ & _).
  destruct (mem_open orc s) as [r s1]. cbn [fst snd] in *. destruct (r <? 0); [cbn; auto|].
  destruct (attempts_inv 3 true s1 I1) as (I2 & _ & _ & U2).
  destruct (attempts orc just send true 3 s1) as [a s2]. cbn [fst snd] in *.
  assert (Det : forall x, inv x -> d_unw x = None -> inv (snd (detach x))).
  { intros x Ix Ux. destruct (detach_spec x Ix) as (H & M & C & U' & Me & T). unfold inv, held.
    rewrite M, C, U', Me, T, Ux. cbn. rewrite app_nil_r. exact H. }
  assert (U2' : d_unw s2 = None) by congruence.
  destruct a.
  - unfold get. rewrite U2'. pose proof (ask_inv s2 I2) as I3. cbn [ask snd] in *.
    match type of I3 with inv ?x => set (s3 := x) in * end.
    assert (U3 : d_unw s3 = None) by exact U2'. clearbody s3.
    destruct (orc (d_i s2) <? 0).
    + pose proof (Det s3 I3 U3) as I4. destruct (detach s3). cbn. auto 12.
    + pose proof (holds_open s3 _ I3) as H. cbn [open_ set_unw snd ret fst] in *. split; [|auto 12].
      unfold inv. eapply holds_perm; [eapply holds_same; [exact H|reflexivity|reflexivity]|].
      unfold held. cbn. rewrite U3. cbn. eapply Permutation_trans; [apply perm_swap|]. apply perm_skip.
      rewrite !app_assoc. apply Permutation_middle.
  - pose proof (Det s2 I2 U2') as I4. destruct (detach s2). cbn. auto 12.
  - cbn. auto 12.
Qed.

Lemma free_all s : inv s -> holds (snd (free s)) [].
Proof.
  intros I. unfold free, bind, get.
  assert (H1 : holds (snd (close_ (d_maps s) s)) (o2l (d_coro s) ++ o2l (d_mem s) ++ o2l (d_unw s) ++ d_thr s)).
  { apply holds_close. eapply holds_perm; [exact I|]. unfold held. apply perm_skip.
    rewrite !app_assoc. apply Permutation_app_tail. apply Permutation_app_tail. apply Permutation_app_comm. }
  cbn [close_ emit snd] in *.
  match type of H1 with holds ?x _ => set (s1 := x) in * end.
  change (d_coro s) with (d_coro s1) in H1.
  pose proof (close_opt_fields (d_coro s1) s1) as (F1 & F2 & F3 & F4 & F5).
  apply holds_close_opt in H1. destruct (close_opt (d_coro s1) s1) as [u s2]. cbn [snd] in *.
  (* detach on what is left *)
  unfold detach, bind, get.
  assert (H2 : holds s2 (o2l (d_mem s2) ++ o2l (d_unw s2) ++ d_thr s2)).
  { rewrite F2, F4, F5. exact H1. }
  clear H1. pose proof (close_opt_fields (d_mem s2) s2) as (G1 & G2 & G3 & G4 & G5).
  apply holds_close_opt in H2. destruct (close_opt (d_mem s2) s2) as [u2 s3]. cbn [snd set_mem] in *.
  rewrite <- G4, <- G5 in H2.
  match goal with |- context[close_opt (d_unw ?x)] => set (s4 := x) in * end.
  assert (H4 : holds s4 (o2l (d_unw s4) ++ d_thr s4)) by (eapply holds_same; [exact H2|reflexivity|reflexivity]).
  clearbody s4. pose proof (close_opt_fields (d_unw s4) s4) as (K1 & K2 & K3 & K4 & K5).
  apply holds_close_opt in H4. destruct (close_opt (d_unw s4) s4) as [u4 s5]. cbn [snd] in *.
  rewrite <- K5 in H4. rewrite <- (app_nil_r (d_thr s5)) in H4.
  destruct (holds_close_all _ _ _ H4) as [H6 _].
  destruct (close_all (d_thr s5) s5) as [u6 s6]. cbn [snd set_thr] in *.
  eapply holds_same; [exact H6|reflexivity|reflexivity].
Qed.

Definition init_res (p : Z * dst) : Prop :=
  (0 <= fst p -> inv (snd p) /\ d_unw (snd p) = None) /\
  (exists H, holds (snd p) H) /\ (fst p = 0 \/ fst p = -1).
Lemma ask_holds s H : holds s H -> holds (snd (ask orc s)) H.
Proof. intros A. eapply holds_same; [exact A|reflexivity|reflexivity]. Qed.
Lemma init_fail s H m : holds s (m :: H) -> init_res (bind (close_ m) (fun _ => ret (-1)) s).
Proof.
  intros A. apply holds_close in A. unfold bind. cbn [close_ emit snd ret] in *. split; [cbn; lia|].
  split; [eexists; exact A|cbn; auto].
Qed.
Lemma init_spec s : holds s [] -> init_res (init orc just s).
Proof.
  intros H0. unfold init. unfold bind at 1. pose proof (ask_holds s [] H0) as H1.
  destruct (ask orc s) as [r s1]. cbn [snd] in H1.
  destruct (r <? 0).
  { split; [cbn; lia|]. split; [exists []; exact H1|cbn; auto]. }
  unfold bind at 1. pose proof (holds_open s1 [] H1) as H2.
  destruct (open_ s1) as [m s2] eqn:Eo. assert (Em : m = d_next s1) by (apply (f_equal fst) in Eo; symmetry; exact Eo).
  rewrite <- Em in H2. cbn [snd] in H2. clear Eo Em H1 H0.
  do 5 unfold bind at 1. cbn [set_maps set_mem set_unw set_thr set_coro]. cbn [d_next d_i d_log d_maps d_mem d_coro d_unw d_thr].
  match goal with |- init_res (bind _ _ ?x) => set (s3 := x) end.
  assert (H3 : holds s3 [m]) by (eapply holds_same; [exact H2|reflexivity|reflexivity]).
  assert (M : d_maps s3 = m /\ d_mem s3 = None /\ d_coro s3 = None /\ d_unw s3 = None /\ d_thr s3 = []) by (cbn; auto 12).
  clearbody s3. clear H2 s2. destruct M as (M1 & M2 & M3 & M4 & M5).
  unfold bind at 1.
  match goal with |- context[(if just then ?a else ?b) s3] => set (C := (if just then a else b) s3) end.
  pose (Q := fun x => d_maps x = m /\ d_mem x = None /\ d_unw x = None /\ d_thr x = [] /\ holds x (m :: o2l (d_coro x))).
  assert (HC : Q (snd C)).
  { unfold C. destruct just.
    - cbn [ret snd]. unfold Q. rewrite M3. auto 12.
    - unfold bind at 1. pose proof (ask_holds s3 _ H3) as H4. destruct (ask orc s3) as [x s4] eqn:Ea.
      assert (N : d_maps s4 = m /\ d_mem s4 = None /\ d_coro s4 = None /\ d_unw s4 = None /\ d_thr s4 = []).
      { change s4 with (snd (x, s4)). rewrite <- Ea. cbn. auto 12. }
      destruct N as (N1 & N2 & N3 & N4 & N5). cbn [snd] in H4. destruct (x <? 0).
      + cbn [ret snd]. unfold Q. rewrite N3. auto 12.
      + pose proof (holds_open s4 _ H4) as H5. unfold bind. cbn [open_ set_coro ret snd] in *. unfold Q. cbn.
        repeat (split; [assumption|]).
        eapply holds_perm; [eapply holds_same; [exact H5|reflexivity|reflexivity]|apply perm_swap]. }
  clearbody C. destruct C as [c s4]. cbn [snd] in HC. unfold Q in HC. clear Q. destruct HC as (N1 & N2 & N4 & N5 & H4).
  destruct (c <? 0); [apply (init_fail s4 _ m H4)|].
  unfold bind at 1. pose proof (ask_holds s4 _ H4) as H5. destruct (ask orc s4) as [g s5] eqn:Ea. cbn [snd] in H5.
  destruct (g <? 0); [apply (init_fail s5 _ m H5)|].
  cbn [ret]. split; [|split; [eexists; exact H5|cbn; auto]]. intros _. cbn [snd].
  assert (Es : s5 = snd (ask orc s4)) by (rewrite Ea; reflexivity). clear Ea.
  assert (Ef : d_maps s5 = m /\ d_mem s5 = None /\ d_coro s5 = d_coro s4 /\ d_unw s5 = None /\ d_thr s5 = [])
    by (rewrite Es; cbn; auto 12).
  destruct Ef as (E1 & E2 & E3 & E4 & E5). split; [|exact E4].
  change (snd (ret 0 s5)) with s5. unfold inv, held. rewrite E1, E2, E3, E4, E5. cbn. rewrite app_nil_r. exact H5.
Qed.
End P.

(** ** Bodies when the process was not just started *)
Section B.
Variables (orc : nat -> Z) (send : bool).
Lemma step_inv x r s : inv s -> inv (snd (emit (Step x r) s)).
Proof. apply holds_step. Qed.

Lemma do_step_inv x s : inv s -> inv (snd (do_step orc x s)) /\ d_unw (snd (do_step orc x s)) = d_unw s.
Proof.
  intros I. unfold do_step, bind. pose proof (ask_inv orc s I) as I1. cbn [ask snd] in *.
  split; [|reflexivity]. apply (step_inv x (orc (d_i s)) _ I1).
Qed.
Lemma attach_step_inv s : inv s -> d_unw s = None ->
  inv (snd (bind (attach orc false send) (done_step SAttach) s)).
Proof.
  intros I U. unfold bind. destruct (attach_inv orc false send s I U) as [I1 _].
  destruct (attach orc false send s) as [r s1]. cbn [snd] in *. apply (step_inv SAttach r s1 I1).
Qed.
Ltac dstep I := match goal with |- context[do_step orc ?x ?s] =>
  let A := fresh in let B := fresh in destruct (do_step_inv x s I) as [A B];
  destruct (do_step orc x s) as [? ?]; cbn [fst snd] in A, B; clear I; rename A into I end.

Lemma tail_inv s : inv s -> inv (snd (
  (r <- do_step orc SCoro ;; if r <? 0 then ret r else
   r <- do_step orc SBefore ;; if r <? 0 then ret r else
   r <- do_step orc SApply ;; do_step orc SAfter ;;; ret r) s)).
Proof.
  intros I. unfold bind. dstep I. destruct (_ <? 0); [exact I|]. dstep I. destruct (_ <? 0); [exact I|].
  dstep I. dstep I. exact I.
Qed.

Lemma patch_body_inv s : inv s -> d_unw s = None -> inv (snd (patch_body orc false send s)).
Proof.
  intros I U. unfold patch_body. unfold bind at 1.
  destruct (mem_open_inv orc s I) as (I1 & _ & _ & U1 & _ & _).
  destruct (mem_open orc s) as [r s1]. cbn [snd] in *. destruct (r <? 0); [exact I1|].
  unfold bind at 1 2. unfold load_libraries. cbn [negb ret]. unfold done_step at 1. unfold bind at 1.
  pose proof (step_inv SLibs 0 s1 I1) as I2. assert (U2 : d_unw (snd (emit (Step SLibs 0) s1)) = None) by (cbn; congruence).
  destruct (emit (Step SLibs 0) s1) as [? s2]. cbn [snd ret] in *. change (0 <? 0) with false. cbn iota.
  unfold bind at 1 2.
  assert (K : exists x s3, kick orc false send s2 = (x, s3) /\ inv s3 /\ d_unw s3 = None).
  { unfold kick. cbn. destruct send; cbn.
    - eexists. eexists. split; [reflexivity|]. split; [eapply holds_same; [exact I2|reflexivity|reflexivity]|exact U2].
    - exists 0, s2. auto. }
  destruct K as (x & s3 & -> & I3 & U3). unfold done_step at 1. unfold bind at 1.
  pose proof (step_inv SKick x s3 I3) as I4. assert (U4 : d_unw (snd (emit (Step SKick x) s3)) = None) by (cbn; congruence).
  destruct (emit (Step SKick x) s3) as [? s4]. cbn [snd ret] in *. destruct (x <? 0); [exact I4|].
  unfold bind at 1. destruct (do_step_inv SMap s4 I4) as [I5 U5]. destruct (do_step orc SMap s4) as [r5 s5].
  cbn [snd] in *. destruct (r5 <? 0); [exact I5|].
  unfold bind at 1. destruct (do_step_inv SLookup s5 I5) as [I6 U6]. destruct (do_step orc SLookup s5) as [r6 s6].
  cbn [snd] in *. destruct (r6 <=? 0); [exact I6|].
  unfold bind at 1. assert (U6' : d_unw s6 = None) by congruence.
  pose proof (attach_step_inv s6 I6 U6') as I7.
  destruct (bind (attach orc false send) (done_step SAttach) s6) as [r7 s7]. cbn [snd] in *.
  destruct (r7 <? 0); [exact I7|]. apply (tail_inv s7 I7).
Qed.

Lemma info_body_inv s : inv s -> inv (snd (info_body orc s)).
Proof.
  intros I. unfold info_body. unfold bind at 1.
  destruct (mem_open_inv orc s I) as (I1 & _). destruct (mem_open orc s) as [r s1]. cbn [snd] in *.
  destruct (r <? 0); [exact I1|]. unfold bind. dstep I1. destruct (_ <? 0); [exact I1|].
  apply (do_step_inv SInfo _ I1).
Qed.
End B.

Lemma unpatch_body_inv orc s : inv s -> d_unw s = None -> inv (snd (unpatch_body orc false false s)).
Proof.
  intros I U. unfold unpatch_body. unfold bind at 1.
  pose proof (attach_step_inv orc false s I U) as I1.
  destruct (bind (attach orc false false) (done_step SAttach) s) as [r s1]. cbn [snd] in *.
  destruct (r <? 0); [exact I1|]. unfold bind.
  destruct (do_step_inv orc SMap s1 I1) as [I2 _]. destruct (do_step orc SMap s1) as [r2 s2]. cbn [snd] in *.
  destruct (r2 <? 0); [exact I2|].
  destruct (do_step_inv orc SCoro s2 I2) as [I3 _]. destruct (do_step orc SCoro s2) as [r3 s3]. cbn [snd] in *.
  destruct (r3 <? 0); [exact I3|]. apply (do_step_inv orc SUnapply s3 I3).
Qed.

Lemma driver_released orc just body final :
  (forall s, inv s -> d_unw s = None -> inv (snd (body s))) ->
  let log := d_log (snd (driver orc just body final d0)) in
  no_double_release log /\ (0 <= fst (init orc just d0) -> all_released log).
Proof.
  intros B. pose (Q := fun (r : Z) (x : dst) => no_double_release (d_log x) /\ (0 <= r -> all_released (d_log x))).
  change (Q (fst (init orc just d0)) (snd (driver orc just body final d0))). unfold driver. unfold bind at 1 2.
  assert (H0 : holds d0 []) by (exists []; split; [reflexivity|constructor]).
  destruct (init_spec orc just d0 H0) as (A & (H & Hi) & C).
  destruct (init orc just d0) as [r s]. cbn [fst snd] in *.
  unfold done_step at 1. unfold bind at 1.
  pose proof (holds_step s SInit r H Hi) as Hi'.
  assert (Keep : 0 <= r -> inv (snd (emit (Step SInit r) s)) /\ d_unw (snd (emit (Step SInit r) s)) = None).
  { intros R. destruct (A R) as [I U]. split; [apply (step_inv SInit r s I)|exact U]. }
  destruct (emit (Step SInit r) s) as [u s1]. cbn [snd ret] in *.
  destruct (r <? 0) eqn:R.
  - cbn [ret snd]. unfold Q. split; [|lia]. destruct Hi' as (L & E & _). unfold no_double_release. rewrite E. discriminate.
  - destruct (Keep ltac:(lia)) as [I U]. unfold bind at 1. pose proof (B s1 I U) as I2.
    destruct (body s1) as [x s2]. cbn [snd] in *. unfold bind at 1. pose proof (free_all s2 I2) as F.
    destruct (free s2) as [u3 s3]. cbn [snd] in *. unfold bind, done_step.
    pose proof (holds_step s3 SFree 0 [] F) as (L & E & P). unfold bind.
    destruct (emit (Step SFree 0) s3) as [u4 s4]. cbn [snd ret] in *.
    apply Permutation_sym, Permutation_nil in P. subst L.
    unfold Q. split; [unfold no_double_release; rewrite E; discriminate|]. intros _. exists (d_next s4). exact E.
Qed.
