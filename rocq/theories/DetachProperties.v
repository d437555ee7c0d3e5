(** Properties C119 and C120: giving a process back, listing its threads. *)
From Coq Require Import String.
From Verif Require Import Base StorageModel CliSpec CliProofs DetachModel DetachProofs.
Open Scope list_scope.

(** C119.  The tool has a context for each of some threads, no two for the same thread.
    Each thread the tool thinks stopped (running = 0) is stopped, gone, let go, or dead;
    if the leader is dead, each other thread is gone by the time it is waited for.  Then
    process_detach comes to an end; every thread that was stopped runs on untraced, every
    dead one that had been stopped is waited for, and the state of every other thread is
    what it was. *)
Theorem C119_given_back_partial : forall cs k,
  (forall p, In p cs -> c_pid p <> 0) -> NoDup (map c_pid cs) ->
  (forall p, In p cs -> c_running p = false -> forall n, k_state k (c_pid p) <> Moving n) ->
  (forall a p b l rest h, cs = a ++ p :: b -> c_running p = false -> k_group k = l :: rest -> c_pid p = l ->
     k_state k l = Dead h -> forall u, In u rest ->
     k_state k u = Gone \/ exists c h', In c a /\ c_pid c = u /\ c_running c = false /\ k_state k u = Dead h') ->
  exists k', process_detach cs k = Done k' /\
    (forall p, In p cs -> k_state k (c_pid p) = Held -> k_state k' (c_pid p) = Free) /\
    (forall p h, In p cs -> c_running p = false -> k_state k (c_pid p) = Dead h -> k_state k' (c_pid p) = Gone) /\
    (forall t, ~ In t (map c_pid cs) -> k_state k' t = k_state k t) /\
    (forall p, In p cs -> (forall n, k_state k (c_pid p) = Moving n \/ k_state k (c_pid p) = Free \/ k_state k (c_pid p) = Gone ->
       k_state k' (c_pid p) = k_state k (c_pid p))).
Proof.
  intros cs k NZ ND NM LD. destruct (detach_result cs k) as (k' & E & _ & R).
  - now apply Forall_forall.
  - exact ND.
  - intros a p b Ec Rn. destruct (k_state k (c_pid p)) eqn:S; try exact Logic.I.
    + exact (NM p ltac:(rewrite Ec; apply in_or_app; right; now left) Rn next S).
    + unfold leader_ok. destruct (k_group k) as [|l rest] eqn:G; [exact Logic.I|]. intro e. apply Forall_forall. intros u I.
      apply (LD a p b l rest how Ec Rn eq_refl e); [now rewrite <- e|exact I].
  - exists k'. split; [exact E|]. split; [|split; [|split]].
    + intros p I S. destruct (R (c_pid p)) as (R1 & _). now apply (R1 p).
    + intros p h I Rn S. destruct (R (c_pid p)) as (_ & R2 & _). now apply (R2 p h).
    + intros t N. destruct (R t) as (_ & _ & R3). apply R3. intros p I e. exfalso. apply N. rewrite <- e. now apply in_map.
    + intros p I n S. destruct (R (c_pid p)) as (_ & _ & R3). apply R3. intros q _ _.
      split; [|intros _ h]; intro X; rewrite X in S; destruct S as [S|[S|S]]; discriminate.
Qed.
Print Assumptions C119_given_back_partial.

(** Attaching to the threads of a process, whether it works or stops at a thread that is
    not there any more, and then giving the process back: every thread is as it was
    before.  While attached every thread listed is stopped. *)
Theorem C119_attach_and_give_back : forall k0 ts ok cs k,
  (forall t, In t ts -> t <> 0 /\ k_state k0 t <> Held) ->
  attach_all (fun _ => true) ts [] k0 = (ok, cs, k) ->
  (ok = true -> forall t, In t ts -> k_state k0 t = Free -> k_state k t = Held) /\
  exists k', process_detach cs k = Done k' /\ forall t, k_state k' t = k_state k0 t.
Proof. intros k0 ts ok cs k F E. apply (attach_detach_same k0 ts ok cs k); [now apply Forall_forall|exact E]. Qed.
Print Assumptions C119_attach_and_give_back.

(** The loop around waitpid needs no more than three turns: that the model's bound on it
    is reached is never the reason for [Hangs]. *)
Theorem C119_wait_turns : forall n t k, wait_exit (3 + n) t k = wait_exit 3 t k.
Proof. exact wait_exit_turns. Qed.
Print Assumptions C119_wait_turns.

(** A process with more than one thread that is killed while the tool has it attached:
    the tool waits for the leader first, which the kernel keeps until the other threads
    have been waited for.  The tool never comes to an end. *)
Theorem C119_killed_hangs : forall k0 l u rest,
  k_group k0 = l :: u :: rest -> NoDup (l :: u :: rest) -> l <> 0 ->
  (forall t, In t (l :: u :: rest) -> k_state k0 t = Free) ->
  exists cs k, attach_all (fun _ => true) (l :: u :: rest) [] k0 = (true, cs, k) /\ process_detach cs (killed k) = Hangs.
Proof. intros k0 l u rest G ND NZ F. apply killed_held_hangs; try assumption. now apply Forall_forall. Qed.
Print Assumptions C119_killed_hangs.

Definition two : kern := {| k_group := [100; 101]; k_state := fun t => if (t =? 100) || (t =? 101) then Free else Gone |}.
Theorem C119_killed_refuted : exists k0 cs k,
  attach_all (fun _ => true) (k_group k0) [] k0 = (true, cs, k) /\ process_detach cs (killed k) = Hangs /\
  (** had the contexts been in the other order, it would have ended with every thread gone *)
  (exists k', process_detach (rev cs) (killed k) = Done k' /\ forall t, In t (k_group k0) -> k_state k' t = Gone).
Proof.
  destruct (attach_all_free [100; 101] [] two) as (k & E & G & H & _).
  - repeat constructor; cbn; intuition discriminate.
  - repeat constructor.
  - easy.
  - exists two. eexists _, k. split; [exact E|]. cbn [app map rev].
    assert (K : forall t, In t [100; 101] -> k_state (killed k) t = Dead (WSignaled 9)).
    { intros t I. unfold killed. cbn [k_state]. rewrite G, (H t I). destruct I as [<-|[<-|[]]]; reflexivity. }
    split.
    + apply (detach_leader_hangs _ _ _ 100 [101] (WSignaled 9) 101); try reflexivity; try (cbn; rewrite G; reflexivity); try easy.
      * apply K. now left.
      * now left.
      * rewrite K by (right; now left). discriminate.
    + set (c := fun t => {| c_pid := t; c_running := false |}).
      destruct (C119_given_back_partial [c 101; c 100] (killed k)) as (k' & D & _ & R2 & _).
      * intros p [<-|[<-|[]]]; discriminate.
      * repeat constructor; cbn; intuition discriminate.
      * intros p [<-|[<-|[]]] _ n; cbn [c c_pid]; rewrite K; try discriminate; cbn; tauto.
      * intros a p b l rest h Ec Rn Gk e S u I. cbn in Gk. rewrite G in Gk. injection Gk as <- <-. destruct I as [<-|[]].
        right. exists (c 101), (WSignaled 9). split; [|repeat split; apply K; right; now left].
        destruct a as [|x a]; cbn in Ec; injection Ec as <- Ec; [discriminate|now left].
      * exists k'. split; [exact D|]. intros t [<-|[<-|[]]].
        -- apply (R2 (c 100) (WSignaled 9)); [right; now left|reflexivity|apply K; now left].
        -- apply (R2 (c 101) (WSignaled 9)); [now left|reflexivity|apply K; right; now left].
Qed.
Print Assumptions C119_killed_refuted.

(** A context marked as stopped whose thread runs, as when a wait for it was cut short:
    the tool waits for the thread until it dies. *)
Theorem C119_cut_short_refuted : exists p k,
  c_running p = false /\ k_state k (c_pid p) = Moving (Some (WStopped 5)) /\ process_detach [p] k = Hangs.
Proof.
  exists {| c_pid := 7; c_running := false |}, {| k_group := [7]; k_state := fun _ => Moving (Some (WStopped 5)) |}.
  repeat split.
Qed.
Print Assumptions C119_cut_short_refuted.
(** A thread whose wait failed while it was being attached stays traced. *)
Theorem C119_stays_traced_refuted : exists aw k0 cs k k',
  attach_all aw (k_group k0) [] k0 = (false, cs, k) /\ process_detach cs k = Done k' /\
  (forall t, In t (k_group k0) -> k_state k0 t = Free) /\
  exists t s, In t (k_group k0) /\ k_state k' t = Moving s.
Proof.
  exists (fun t => t =? 100), two. eexists _, _, _. split; [reflexivity|]. split; [reflexivity|]. split.
  - intros t [<-|[<-|[]]]; reflexivity.
  - exists 101. eexists. split; [cbn; tauto|]. reflexivity.
Qed.
Print Assumptions C119_stays_traced_refuted.

(** Three threads attached, one of them dies: the two others run on. *)
Example C119_given_back_case : exists cs k k',
  attach_all (fun _ => true) [100; 101; 102] []
     {| k_group := [100; 101; 102]; k_state := fun t => if (100 <=? t) && (t <=? 102) then Free else Gone |} = (true, cs, k) /\
  process_detach cs (set_state 101 (Dead (WExited 3)) k) = Done k' /\
  k_state k' 100 = Free /\ k_state k' 101 = Gone /\ k_state k' 102 = Free.
Proof. eexists _, _, _. split; [reflexivity|]. split; [reflexivity|]. repeat split. Qed.
(** The second of three threads is not there any more: attaching fails, the first is let
    go. *)
Example C119_attach_and_give_back_case : exists cs k k',
  attach_all (fun _ => true) [100; 101; 102] []
     {| k_group := [100; 102]; k_state := fun t => if (t =? 100) || (t =? 102) then Free else Gone |} = (false, cs, k) /\
  k_state k 100 = Held /\ process_detach cs k = Done k' /\ k_state k' 100 = Free.
Proof. eexists _, _, _. split; [reflexivity|]. split; [reflexivity|]. split; [reflexivity|]. reflexivity. Qed.

(** C120.  The threads of a process: the numbers of the entries of its task directory
    that do not start with a dot, in order, whatever their count and whatever array is
    left from an earlier call.  The array is never written outside, it is never more than
    twice too large by growing, and only a failing opendir or realloc makes it fail. *)
Definition no_dot (d : list Z) : Prop := forall r, d <> 46 :: r.
Inductive kept : list (list Z) -> list (list Z) -> Prop :=
| kept_nil : kept [] []
| kept_dot d r l : kept r l -> kept ((46 :: d) :: r) l
| kept_name d r l : no_dot d -> kept r l -> kept (d :: r) (d :: l).
Lemma shown_kept names : kept names (shown names).
Proof.
  induction names as [|d r IH]; [constructor|]. unfold shown. cbn [filter]. fold (shown r). destruct d as [|c d].
  - cbn [negb]. constructor; [discriminate|exact IH].
  - destruct (Z.eqb_spec c 46) as [->|N]; cbn [negb]; [now constructor|]. constructor; [|exact IH]. intros x e. injection e as e _. contradiction.
Qed.
Lemma kept_fun names : forall l l', kept names l -> kept names l' -> l = l'.
Proof.
  induction names as [|d r IH]; intros l l' K K'; inversion K; subst; inversion K'; subst; try reflexivity.
  - now apply IH.
  - exfalso. match goal with H : no_dot _ |- _ => now apply (H _ eq_refl) end.
  - exfalso. match goal with H : no_dot _ |- _ => now apply (H _ eq_refl) end.
  - f_equal. now apply IH.
Qed.

Theorem C120_threads_listed : forall dir alive a alloc,
  a_size a = alloc ->
  match list_threads dir alive a alloc with
  | LOk a' n alloc' =>
      exists names l, dir = Some names /\ kept names l /\ n = List.length l /\
        a_size a' = alloc' /\ (n <= alloc')%nat /\ (alloc' <= Nat.max alloc (2 * n))%nat /\
        forall vs, Forall2 (fun d v => numeral d v /\ v < 2 ^ 31) l vs -> firstn n (a_data a') = vs
  | LFail => dir = None \/ In false alive
  | LOutside => False
  end.
Proof.
  intros [names|] alive a alloc A; cbn [list_threads]; [|now left].
  pose proof (list_loop_spec names alive a 0 alloc A ltac:(lia) ltac:(lia)) as H.
  destruct (list_loop names alive a 0 alloc) as [a' n al| |]; [|now right|exact H].
  destruct H as (S & N & L & D & M). exists names, (shown names). split; [reflexivity|]. split; [apply shown_kept|].
  split; [exact N|]. split; [exact S|]. split; [exact L|]. split; [exact M|].
  intros vs F. rewrite D. cbn [firstn app]. clear - F. induction F as [|d v l vs (Nu & Lt) F IH]; [reflexivity|].
  cbn [map]. now rewrite IH, (atoi_numeral d v).
Qed.
Print Assumptions C120_threads_listed.

Theorem C120_kept_once : forall names l l', kept names l -> kept names l' -> l = l'.
Proof. exact kept_fun. Qed.
Print Assumptions C120_kept_once.

Example C120_threads_listed_case :
  exists a, list_threads (Some [str "."; str ".."; str "100"; str "101"; str "250"]) [] {| a_size := 1; a_data := [100] |} 1
    = LOk a 3 4 /\ firstn 3 (a_data a) = [100; 101; 250].
Proof. eexists. split; reflexivity. Qed.
