From Coq Require Import String.
From Verif Require Import Base BaseProofs StorageModel ServModel ServSpec CliModel CliSpec LoopModel LoopSpec.
Open Scope list_scope.

Section Proofs.
Variable lim : nat.
Variable sfd : Z.
Variable t0 : fdt.
Hypothesis ST : started lim sfd t0.

Definition good (s : st) : Prop :=
  (forall fd, fd <> 101 -> fd <> 102 -> s_fds s fd = t0 fd) /\
  (forall fd n b, s_fds s fd <> Some (OConn n, b)).

Lemma find_first (p : nat -> bool) len : forall start x, (start <= x < start + len)%nat -> p x = true ->
  exists y, find p (seq start len) = Some y /\ (start <= y <= x)%nat /\ p y = true.
Proof.
  induction len as [|len IH]; intros start x H P; [lia|]. cbn [seq find]. destruct (p start) eqn:E.
  - exists start. split; [reflexivity|]. split; [lia|exact E].
  - assert (start <> x) by congruence. destruct (IH (S start) x ltac:(lia) P) as (y & F & B & Q).
    exists y. split; [exact F|]. split; [lia|exact Q].
Qed.

Definition accepted (s : st) (fd : Z) : st :=
  {| s_dir := s_dir s; s_child := s_child s; s_fds := fset (s_fds s) fd (Some (OConn (s_n s), true)); s_n := S (s_n s) |}.
Lemma accept_good s : good s ->
  exists fd, accept lim sfd s = Some (accepted s fd, fd) /\ 0 <= fd <= 100 /\ t0 fd = None.
Proof.
  intros [G _]. destruct ST as [L _ _ [b El] (N1 & N2 & N3 & N4) (f & Bf & Ef) _]. unfold accept.
  rewrite G by assumption. rewrite El. unfold lowest.
  destruct (find_first (fun i => is_free (s_fds s) (Z.of_nat i)) lim 0 (Z.to_nat f)) as (y & F & B & Q); [lia| |].
  { unfold is_free. rewrite Z2Nat.id by lia. rewrite G by lia. rewrite Ef. reflexivity. }
  rewrite F. cbn [option_map]. exists (Z.of_nat y). split; [reflexivity|]. split; [lia|].
  unfold is_free in Q. rewrite G in Q by lia. destruct (t0 (Z.of_nat y)); [discriminate|reflexivity].
Qed.

(** ** The descriptors while a command is executed *)
Definition std1 : option obj := obj_of t0 1.
Definition std2 : option obj := obj_of t0 2.

Definition redirected (s : st) (fd : Z) (n : nat) : fdt := fun i =>
  if (i =? 1) || (i =? 2) then Some (OConn n, true)
  else if i =? 101 then match t0 1 with Some (o, _) => Some (o, true) | None => None end
  else if i =? 102 then match t0 2 with Some (o, _) => Some (o, true) | None => None end
  else if i =? fd then Some (OConn n, true) else s_fds s i.
Definition restored (s : st) (fd : Z) (n : nat) : fdt := fun i =>
  if i =? 101 then match t0 1 with Some (o, _) => Some (o, true) | None => None end
  else if i =? 102 then match t0 2 with Some (o, _) => Some (o, true) | None => None end
  else if i =? fd then Some (OConn n, true) else s_fds s i.

Lemma fd_not_std fd : t0 fd = None -> fd <> 1 /\ fd <> 2 /\ fd <> sfd.
Proof.
  intros E. destruct ST as [_ (o1 & E1 & _) (o2 & E2 & _) [b El] _ _ _].
  split; [|split]; intros ->; congruence.
Qed.

Lemma dup3_ok t old new o b : t old = Some (o, b) -> old <> new -> 0 <= new < Z.of_nat lim ->
  dup3 lim t old new = (fset t new (Some (o, true)), new).
Proof.
  intros E N B. unfold dup3. rewrite E. replace ((old =? new) || (new <? 0) || (Z.of_nat lim <=? new)) with false by lia. reflexivity.
Qed.
Lemma dup2_ok t old new o b : t old = Some (o, b) -> old <> new -> 0 <= new < Z.of_nat lim ->
  dup2 lim t old new = fset t new (Some (o, false)).
Proof.
  intros E N B. unfold dup2. rewrite E. replace ((old =? new) || (new <? 0) || (Z.of_nat lim <=? new)) with false by lia. reflexivity.
Qed.
Lemma redirect_spec s fd : good s -> 0 <= fd <= 100 -> t0 fd = None ->
  exists t, redirect lim (s_fds (accepted s fd)) fd = (t, 101, 102) /\
    (forall i, t i = redirected s fd (s_n s) i) /\
    forall i, restore lim t 101 102 i = restored s fd (s_n s) i.
Proof.
  intros [G _] B E. destruct (fd_not_std fd E) as (F1 & F2 & _).
  destruct ST as [L (o1 & E1 & _) (o2 & E2 & _) _ _ _ _].
  assert (T1 : s_fds s 1 = Some (o1, false)) by (rewrite G by lia; exact E1).
  assert (T2 : s_fds s 2 = Some (o2, false)) by (rewrite G by lia; exact E2).
  assert (TF : s_fds (accepted s fd) fd = Some (OConn (s_n s), true)) by (unfold accepted, fset; cbn [s_fds]; rewrite Z.eqb_refl; reflexivity).
  assert (TO : forall i, i <> fd -> s_fds (accepted s fd) i = s_fds s i).
  { intros i N. unfold accepted, fset. cbn [s_fds]. replace (i =? fd) with false by lia. reflexivity. }
  set (T := s_fds (accepted s fd)) in *.
  assert (X : forall (t : fdt) a x b, fset t a x b = if b =? a then x else t b) by reflexivity.
  unfold redirect.
  rewrite (dup3_ok T 1 101 o1 false) by (try lia; rewrite TO by lia; exact T1).
  rewrite (dup3_ok _ 2 102 o2 false); [|rewrite !X; replace (2 =? 101) with false by lia; rewrite TO by lia; exact T2|lia|lia].
  rewrite (dup3_ok _ fd 1 (OConn (s_n s)) true); [|rewrite !X; replace (fd =? 101) with false by lia; replace (fd =? 102) with false by lia; exact TF|lia|lia].
  rewrite (dup3_ok _ fd 2 (OConn (s_n s)) true); [|rewrite !X; replace (fd =? 1) with false by lia; replace (fd =? 101) with false by lia; replace (fd =? 102) with false by lia; exact TF|lia|lia].
  eexists. split; [reflexivity|]. split.
  - intros i. unfold redirected. rewrite !X, E1, E2.
    destruct (i =? 1) eqn:I1; destruct (i =? 2) eqn:I2; destruct (i =? 101) eqn:I3; destruct (i =? 102) eqn:I4; try lia; try reflexivity.
  - intros i. unfold restore. rewrite (dup2_ok _ 101 1 o1 true); [|rewrite !X; reflexivity|lia|lia].
    rewrite (dup2_ok _ 102 2 o2 true); [|rewrite !X; reflexivity|lia|lia].
    unfold restored. rewrite !X, E1, E2.
    destruct (i =? 1) eqn:I1; destruct (i =? 2) eqn:I2; destruct (i =? 101) eqn:I3; destruct (i =? 102) eqn:I4; try lia; try reflexivity.
    + apply Z.eqb_eq in I1. subst i. replace (1 =? fd) with false by lia. symmetry. exact T1.
    + apply Z.eqb_eq in I2. subst i. replace (2 =? fd) with false by lia. symmetry. exact T2.
Qed.

(** ** What one command does *)
Definition prints_to (a b : option obj) (ps : list (bool * list Z)) : list event :=
  flat_map (fun p : bool * list Z => match snd p with [] => [] | bs => [EWrite (if fst p then b else a) bs] end) ps.
Lemma print_all_to t ps : print_all t ps = prints_to (obj_of t 1) (obj_of t 2) ps.
Proof.
  unfold print_all, prints_to. apply flat_map_ext. intros [e bs]. cbn [fst snd]. unfold write_fd.
  destruct bs; [reflexivity|]. destruct e; reflexivity.
Qed.
Definition writes_to (a : option obj) (bs : list Z) : list event := match bs with [] => [] | _ => [EWrite a bs] end.

Definition quiet_cmds := [str "execve"; str "startup"; str "update"; str "storage"; str "stop"].
Inductive exec_does (s : st) (n : nat) (fd : Z) (c : conn) : list (list Z) -> list event -> sres -> list Z -> Z -> Prop :=
  | ED_patch just args pid : scan_d (hd [] args) = Some pid ->
      exec_does s n fd c ((if just : bool then str "execve" else str "startup") :: args)
        (EPatch (s_dir s) pid just (Some (OConn n)) :: prints_to std1 std2 (c_prints c)) (Ret 0) (s_dir s) (s_child s)
  | ED_nopid just args bs : scan_d (hd [] args) = None ->
      exec_does s n fd c ((if just : bool then str "execve" else str "startup") :: args)
        (writes_to std2 bs) (Ret (-1)) (s_dir s) (s_child s)
  | ED_update args : exec_does s n fd c (str "update" :: args)
      (EPatch (s_dir s) (-1) false None :: prints_to std1 std2 (c_prints c)) (Ret (c_ret c)) (s_dir s) (s_child s)
  | ED_storage args : exec_does s n fd c (str "storage" :: args) [] (Ret 0) (firstn 4095 (hd [] args)) (s_child s)
  | ED_stop args : exec_does s n fd c (str "stop" :: args) [] (Ret SERVER_STOP) (s_dir s) (s_child s)
  | ED_run_none args rv : (c_fork c = FErr \/ c_fork c = FChild false) -> rv = -1 ->
      exec_does s n fd c (str "run" :: args) (end_child s) (Ret rv) (s_dir s) 0
  | ED_run args pid : c_fork c = FParent pid ->
      exec_does s n fd c (str "run" :: args) (end_child s ++ [EFork pid; EWrite (Some (OConn n)) (dec pid ++ [10])]) (Ret 0) (s_dir s) pid
  | ED_gone args t : c_fork c = FChild true -> (forall i, t i = at_exec (redirected s fd n) i) ->
      exec_does s n fd c (str "run" :: args) (end_child s ++ [EExec (hd [] args) t]) Gone (s_dir s) 0
  | ED_kill args pid : scan_d (hd [] args) = Some pid ->
      exec_does s n fd c (str "kill" :: args) [ESignal pid; EWait pid] (Ret 0) (s_dir s) (s_child s)
  | ED_kill_none args bs : scan_d (hd [] args) = None ->
      exec_does s n fd c (str "kill" :: args) (writes_to (Some (OConn n)) bs) (Ret (-1)) (s_dir s) (s_child s)
  | ED_op cmd args : ~ In cmd (str "run" :: str "kill" :: quiet_cmds) ->
      exec_does s n fd c (cmd :: args) (EOp cmd args :: prints_to (Some (OConn n)) (Some (OConn n)) (c_prints c))
        (Ret (c_ret c)) (s_dir s) (s_child s).

Lemma argv1_hd cmd args : argv1 (cmd :: args) = hd [] args.
Proof. destruct args; reflexivity. Qed.
Lemma nonempty_dec pid : exists c l, dec pid ++ [10] = c :: l.
Proof. destruct (dec pid) as [|c l]; cbn [app]; eauto. Qed.

Lemma exec_spec s c fd cmd args : good s -> 0 <= fd <= 100 -> t0 fd = None ->
  exists s2 ev r, server_execute_cmd lim (accepted s fd) c fd (cmd :: args) = (s2, ev, r) /\
    exec_does s (s_n s) fd c (cmd :: args) ev r (s_dir s2) (s_child s2) /\ s_n s2 = S (s_n s) /\
    (r <> Gone -> forall i, i <> 101 -> i <> 102 -> s_fds s2 i = s_fds (accepted s fd) i) /\
    (r <> Gone -> forall i n b, i <> fd -> s_fds s2 i <> Some (OConn n, b)) /\
    (r <> Gone -> s_fds s2 fd = Some (OConn (s_n s), true)).
Proof.
  intros GS B E. pose proof GS as [G NC]. destruct (fd_not_std fd E) as (F1 & F2 & _).
  unfold server_execute_cmd. cbn [hd].
  assert (O1 : obj_of (s_fds (accepted s fd)) 1 = std1).
  { unfold obj_of, std1, accepted. cbn [s_fds]. unfold fset. replace (1 =? fd) with false by lia. rewrite G by lia. reflexivity. }
  assert (O2 : obj_of (s_fds (accepted s fd)) 2 = std2).
  { unfold obj_of, std2, accepted. cbn [s_fds]. unfold fset. replace (2 =? fd) with false by lia. rewrite G by lia. reflexivity. }
  assert (OF : obj_of (s_fds (accepted s fd)) fd = Some (OConn (s_n s))).
  { unfold obj_of, accepted. cbn [s_fds]. unfold fset. rewrite Z.eqb_refl. reflexivity. }
  assert (K : forall s2, s_fds s2 = s_fds (accepted s fd) ->
    (forall i, i <> 101 -> i <> 102 -> s_fds s2 i = s_fds (accepted s fd) i) /\
    (forall i n b, i <> fd -> s_fds s2 i <> Some (OConn n, b)) /\ s_fds s2 fd = Some (OConn (s_n s), true)).
  { intros s2 ->. split; [auto|]. unfold accepted. cbn [s_fds]. unfold fset. split.
    - intros i n b N. replace (i =? fd) with false by lia. apply NC.
    - rewrite Z.eqb_refl. reflexivity. }
  pose proof (K (accepted s fd) eq_refl) as (K1 & K2 & K3).
  assert (EX : forall just, exists ev r, cmd_execve_startup (accepted s fd) c fd (cmd :: args) just = (ev, r) /\
    (cmd = (if just : bool then str "execve" else str "startup") -> exec_does s (s_n s) fd c (cmd :: args) ev (Ret r) (s_dir s) (s_child s))).
  { intros just. unfold cmd_execve_startup. rewrite argv1_hd. destruct (scan_d (hd [] args)) as [pid|] eqn:ES.
    - eexists _, _. split; [reflexivity|]. intros ->. rewrite OF, print_all_to, O1, O2. change (s_dir (accepted s fd)) with (s_dir s). apply ED_patch. exact ES.
    - eexists _, _. split; [reflexivity|]. intros ->. unfold write_fd. rewrite O2.
      exact (ED_nopid s (s_n s) fd c just args (str "can't parse pid from " ++ hd [] args) ES). }
  destruct (list_eqb cmd (str "execve")) eqn:C1.
  { apply list_eqb_eq in C1. destruct (EX true) as (ev & r & -> & H). eexists _, _, _. split; [reflexivity|].
    split; [exact (H C1)|]. split; [reflexivity|]. auto. }
  destruct (list_eqb cmd (str "startup")) eqn:C2.
  { apply list_eqb_eq in C2. destruct (EX false) as (ev & r & -> & H). eexists _, _, _. split; [reflexivity|].
    split; [exact (H C2)|]. split; [reflexivity|]. auto. }
  destruct (list_eqb cmd (str "update")) eqn:C3.
  { apply list_eqb_eq in C3. subst cmd. eexists _, _, _. split; [reflexivity|].
    split; [|split; [reflexivity|auto]]. rewrite print_all_to, O1, O2. exact (ED_update s (s_n s) fd c args). }
  destruct (list_eqb cmd (str "storage")) eqn:C4.
  { apply list_eqb_eq in C4. subst cmd. eexists _, _, _. split; [reflexivity|].
    split; [|split; [reflexivity|auto]]. cbn [s_dir cmd_storage with_dir]. rewrite argv1_hd. exact (ED_storage s (s_n s) fd c args). }
  destruct (list_eqb cmd (str "stop")) eqn:C5.
  { apply list_eqb_eq in C5. subst cmd. eexists _, _, _. split; [reflexivity|].
    split; [|split; [reflexivity|auto]]. exact (ED_stop s (s_n s) fd c args). }
  assert (NQ : ~ In cmd quiet_cmds).
  { intros I. cbn [In quiet_cmds] in I. destruct I as [I|[I|[I|[I|[I|[]]]]]]; symmetry in I; apply list_eqb_eq in I; congruence. }
  destruct (redirect_spec s fd GS B E) as (t & R & HT & HR). rewrite R. cbv iota beta.
  assert (W1 : obj_of t 1 = Some (OConn (s_n s))) by (unfold obj_of; rewrite HT; reflexivity).
  assert (W2 : obj_of t 2 = Some (OConn (s_n s))) by (unfold obj_of; rewrite HT; reflexivity).
  assert (KR : forall s2, s_fds s2 = restore lim t 101 102 ->
    (forall i, i <> 101 -> i <> 102 -> s_fds s2 i = s_fds (accepted s fd) i) /\
    (forall i n b, i <> fd -> s_fds s2 i <> Some (OConn n, b)) /\ s_fds s2 fd = Some (OConn (s_n s), true)).
  { intros s2 ->. split; [|split].
    - intros i N1 N2. rewrite HR. unfold restored, accepted. cbn [s_fds]. unfold fset.
      replace (i =? 101) with false by lia. replace (i =? 102) with false by lia. reflexivity.
    - intros i n b N. rewrite HR. unfold restored. destruct ST as [_ (o1 & E1 & X1) (o2 & E2 & X2) _ _ _ _]. rewrite E1, E2.
      destruct (i =? 101); [intros H; injection H as H _; exact (X1 n H)|].
      destruct (i =? 102); [intros H; injection H as H _; exact (X2 n H)|].
      replace (i =? fd) with false by lia. apply NC.
    - rewrite HR. unfold restored. replace (fd =? 101) with false by lia. replace (fd =? 102) with false by lia.
      rewrite Z.eqb_refl. reflexivity. }
  destruct (list_eqb cmd (str "run")) eqn:C6.
  { apply list_eqb_eq in C6. subst cmd. unfold cmd_run. cbv zeta. cbn [s_child with_fds with_child s_fds accepted].
    change (if s_child s =? 0 then [] else kill_and_wait (s_child s)) with (end_child s).
    destruct (c_fork c) as [|pid|[|]] eqn:EF.
    - eexists _, _, _. split; [reflexivity|]. split; [refine (ED_run_none s (s_n s) fd c args (-1) _ eq_refl); rewrite EF; auto|]. split; [reflexivity|].
      match goal with |- (_ -> forall i, _ -> _ -> s_fds ?x i = _) /\ _ => destruct (KR x eq_refl) as (A1 & A2 & A3) end. auto.
    - eexists _, _, _. split; [reflexivity|]. split.
      { unfold write_fd. destruct (nonempty_dec pid) as (x & l & ED). rewrite ED, W1, <- ED. exact (ED_run s (s_n s) fd c args pid EF). }
      split; [reflexivity|].
      match goal with |- (_ -> forall i, _ -> _ -> s_fds ?x i = _) /\ _ => destruct (KR x eq_refl) as (A1 & A2 & A3) end. auto.
    - eexists _, _, _. split; [reflexivity|]. split.
      { rewrite argv1_hd. refine (ED_gone s (s_n s) fd c args _ EF _). intros i. unfold at_exec. rewrite HT. reflexivity. }
      split; [reflexivity|]. split; [|split]; intros H; contradiction H; reflexivity.
    - eexists _, _, _. split; [reflexivity|]. split; [refine (ED_run_none s (s_n s) fd c args (-1) _ eq_refl); rewrite EF; auto|]. split; [reflexivity|].
      match goal with |- (_ -> forall i, _ -> _ -> s_fds ?x i = _) /\ _ => destruct (KR x eq_refl) as (A1 & A2 & A3) end. auto. }
  destruct (list_eqb cmd (str "kill")) eqn:C7.
  { apply list_eqb_eq in C7. subst cmd. unfold cmd_kill. rewrite argv1_hd. cbn [s_fds with_fds].
    destruct (scan_d (hd [] args)) as [pid|] eqn:ES; (eexists _, _, _; split; [reflexivity|]; split;
      [|split; [reflexivity|]; match goal with |- (_ -> forall i, _ -> _ -> s_fds ?x i = _) /\ _ => destruct (KR x eq_refl) as (A1 & A2 & A3) end; auto]).
    - exact (ED_kill s (s_n s) fd c args pid ES).
    - unfold write_fd. rewrite W2.
      exact (ED_kill_none s (s_n s) fd c args (str "can't parse pid from " ++ hd [] args ++ [10]) ES). }
  eexists _, _, _. split; [reflexivity|]. split; [|split; [reflexivity|];
    match goal with |- (_ -> forall i, _ -> _ -> s_fds ?x i = _) /\ _ => destruct (KR x eq_refl) as (A1 & A2 & A3) end; auto].
  cbn [tl]. rewrite print_all_to, W1, W2. refine (ED_op s (s_n s) fd c cmd args _). cbn [In]. intros [I|[I|I]]; [| |exact (NQ I)];
    symmetry in I; apply list_eqb_eq in I; congruence.
Qed.

(** ** One connection *)
Lemma scan_nonempty fuel b off : forall p argv l, argv <> [] -> scan fuel b off p argv = Some (Some l) -> l <> [].
Proof.
  induction fuel as [|f IH]; intros p argv l N H; cbn [scan] in H; [discriminate|].
  destruct (_ && _) in H; [|injection H as <-; exact N].
  destruct (b p) as [x|]; [|discriminate]. destruct (negb (x =? 0)); [eapply IH; eassumption|].
  destruct (ARGV_SIZE <=? zlen argv); [discriminate|]. destruct (b (p + 1)) as [y|]; [|discriminate].
  destruct (y =? 0); [injection H as <-; exact N|]. eapply IH; [|exact H]. destruct argv; discriminate.
Qed.
Lemma executed_nonempty evs argv : handle_client evs = HExec argv -> exists cmd args, argv = cmd :: args.
Proof.
  unfold handle_client. destruct (recv_loop _ _ _) as [b off| | | |]; try discriminate.
  destruct (off =? MSG_SIZE); [discriminate|]. destruct (scan _ _ _ _ _) as [[ps|]|] eqn:E; try discriminate.
  apply scan_nonempty in E; [|discriminate]. destruct ps as [|p ps]; [congruence|]. cbn [msg_strs].
  destruct (msg_str _ _ _); [|discriminate]. destruct (msg_strs _ _); [|discriminate].
  intros H. injection H as <-. eauto.
Qed.

Inductive conn_does (s : st) (n : nat) (fd : Z) (c : conn) : list event -> hout -> list Z -> Z -> Prop :=
  | CD_wait : handle_client (c_recv c) = HWait -> conn_does s n fd c [] (HFin FBlocked) (s_dir s) (s_child s)
  | CD_undef : handle_client (c_recv c) = HUndef \/ handle_client (c_recv c) = HOverrun ->
      conn_does s n fd c [] (HFin FUndefined) (s_dir s) (s_child s)
  | CD_closed : handle_client (c_recv c) = HClosed ->
      conn_does s n fd c [EClose (Some (OConn n)); EClose None] (HRet 0) (s_dir s) (s_child s)
  | CD_exec argv ev rv d ch : handle_client (c_recv c) = HExec argv -> exec_does s n fd c argv ev (Ret rv) d ch ->
      conn_does s n fd c (ev ++ [EClose (Some (OConn n))]) (HRet rv) d ch
  | CD_gone argv ev d ch : handle_client (c_recv c) = HExec argv -> exec_does s n fd c argv ev Gone d ch ->
      conn_does s n fd c ev (HFin FGone) d ch.

Lemma good_closed s s2 fd : good s -> t0 fd = None ->
  (forall i, i <> fd -> i <> 101 -> i <> 102 -> s_fds s2 i = s_fds (accepted s fd) i) ->
  (forall i n b, i <> fd -> s_fds s2 i <> Some (OConn n, b)) -> good (with_fds s2 (fset (s_fds s2) fd None)).
Proof.
  intros [G NC] E H1 H2. split; cbn [s_fds with_fds]; unfold fset.
  - intros i N1 N2. destruct (i =? fd) eqn:I; [apply Z.eqb_eq in I; subst i; symmetry; exact E|].
    rewrite H1 by lia. unfold accepted, fset. cbn [s_fds]. rewrite I. apply G; assumption.
  - intros i n b. destruct (i =? fd) eqn:I; [discriminate|]. apply H2. lia.
Qed.

Lemma conn_spec s c fd : good s -> 0 <= fd <= 100 -> t0 fd = None ->
  exists s2 ev h, handle_conn lim (accepted s fd) c fd = (s2, ev, h) /\
    conn_does s (s_n s) fd c ev h (s_dir s2) (s_child s2) /\ s_n s2 = S (s_n s) /\ (forall rv, h = HRet rv -> good s2).
Proof.
  intros GS B E. pose proof GS as [G NC]. unfold handle_conn. destruct (handle_client (c_recv c)) eqn:EH.
  - unfold close_fd. cbn [s_fds with_fds]. eexists _, _, _. split; [reflexivity|].
    assert (O1 : obj_of (s_fds (accepted s fd)) fd = Some (OConn (s_n s))).
    { unfold obj_of, accepted, fset. cbn [s_fds]. rewrite Z.eqb_refl. reflexivity. }
    assert (O2 : obj_of (fset (s_fds (accepted s fd)) fd None) fd = None).
    { unfold obj_of, fset. rewrite Z.eqb_refl. reflexivity. }
    rewrite O1, O2. split; [exact (CD_closed s (s_n s) fd c EH)|]. split; [reflexivity|]. intros rv _.
    refine (good_closed s (with_fds (accepted s fd) (fset (s_fds (accepted s fd)) fd None)) fd GS E _ _).
    + cbn [s_fds with_fds]. intros i N0 N1 N2. unfold fset at 1. replace (i =? fd) with false by lia. reflexivity.
    + cbn [s_fds with_fds]. intros i n b N. unfold fset, accepted. cbn [s_fds]. unfold fset. replace (i =? fd) with false by lia. apply NC.
  - eexists _, _, _. split; [reflexivity|]. split; [exact (CD_wait s (s_n s) fd c EH)|]. split; [reflexivity|discriminate].
  - destruct (executed_nonempty _ _ EH) as (cmd & args & ->).
    destruct (exec_spec s c fd cmd args GS B E) as (s2 & ev & r & -> & X & N & K1 & K2 & K3). destruct r as [rv|].
    + unfold close_fd. eexists _, _, _. split; [reflexivity|]. cbn [s_dir s_child with_fds s_n].
      unfold obj_of. rewrite K3 by discriminate. split; [exact (CD_exec s (s_n s) fd c _ _ _ _ _ EH X)|]. split; [exact N|].
      intros rv' _. refine (good_closed s s2 fd GS E _ _).
      * intros i _. apply K1. discriminate.
      * intros i n b. apply K2. discriminate.
    + eexists _, _, _. split; [reflexivity|]. split; [exact (CD_gone s (s_n s) fd c _ _ _ _ EH X)|]. split; [exact N|discriminate].
  - eexists _, _, _. split; [reflexivity|]. split; [exact (CD_undef s (s_n s) fd c (or_introl EH))|]. split; [reflexivity|discriminate].
  - eexists _, _, _. split; [reflexivity|]. split; [exact (CD_undef s (s_n s) fd c (or_intror EH))|]. split; [reflexivity|discriminate].
Qed.

(** ** The loop *)
Inductive runs : list input -> st -> st -> list event -> fin -> Prop :=
  | R_wait s : good s -> runs [] s s [] FWaiting
  | R_term r s : good s -> runs (ITerm :: r) s s (end_child s) (FExit 143)
  | R_err r s : good s -> runs (IErr :: r) s s (end_child s) (FExit 0)
  | R_fin c r s s2 fd ev f : good s -> 0 <= fd <= 100 -> t0 fd = None ->
      conn_does s (s_n s) fd c ev (HFin f) (s_dir s2) (s_child s2) ->
      runs (IConn c :: r) s s2 (EAccept (s_n s) :: ev) f
  | R_stop c r s s2 fd ev : good s -> 0 <= fd <= 100 -> t0 fd = None ->
      conn_does s (s_n s) fd c ev (HRet SERVER_STOP) (s_dir s2) (s_child s2) -> good s2 ->
      runs (IConn c :: r) s s2 (EAccept (s_n s) :: ev ++ end_child s2) (FExit 0)
  | R_next c r s s2 s3 fd ev rv ev' f : good s -> 0 <= fd <= 100 -> t0 fd = None ->
      conn_does s (s_n s) fd c ev (HRet rv) (s_dir s2) (s_child s2) -> rv <> SERVER_STOP -> s_n s2 = S (s_n s) ->
      runs r s2 s3 ev' f -> runs (IConn c :: r) s s3 (EAccept (s_n s) :: ev ++ ev') f.

Lemma runs_good l s s3 tr f : runs l s s3 tr f -> good s.
Proof. destruct 1; assumption. Qed.
Lemma loop_runs l : forall s s3 tr f, good s -> serve_loop lim sfd l s = (s3, tr, f) -> runs l s s3 tr f.
Proof.
  induction l as [|i l IH]; intros s s3 tr f GS H; cbn [serve_loop] in H.
  - destruct (accept_good s GS) as (fd & EA & _). rewrite EA in H. injection H as <- <- <-. constructor. exact GS.
  - destruct i as [c| |].
    + destruct (accept_good s GS) as (fd & EA & B & E). rewrite EA in H.
      destruct (conn_spec s c fd GS B E) as (s2 & ev & h & EH & X & N & G2). rewrite EH in H. destruct h as [rv|f0].
      * destruct (rv =? SERVER_STOP) eqn:ER.
        { apply Z.eqb_eq in ER. subst rv. injection H as <- <- <-. eapply R_stop; eauto. }
        destruct (serve_loop lim sfd l s2) as [[s3' tr'] f'] eqn:EL. injection H as <- <- <-.
        eapply R_next; eauto. intros ->. rewrite Z.eqb_refl in ER. discriminate.
      * injection H as <- <- <-. eapply R_fin; eauto.
    + injection H as <- <- <-. constructor. exact GS.
    + injection H as <- <- <-. change (Z.lor 128 15) with 143. constructor. exact GS.
Qed.
Lemma initial_good dir : good (initial dir t0).
Proof. split; [reflexivity|]. apply (st_no_conn _ _ _ ST). Qed.
End Proofs.
