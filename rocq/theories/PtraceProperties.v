(** C20-C25, C62-C66: operations on a traced process. *)
From Coq Require Import ZArith List Bool Lia.
From Verif Require Import Base BaseProofs RemoteModel EngineModel HoleProofs EngineProofs PeekProofs PtraceModel PtraceSpec PtraceProofs PtraceRunProofs.
Import ListNotations.
Open Scope Z_scope.

(** A patient with two pages of distinguishable bytes. *)
Definition px_mem : mem := fun x => if (0x1000 <=? x) && (x <? 0x3000) then Some (x mod 251) else None.
Definition px_st (o : list answer) : st := {| sm := px_mem; sx := fun _ => true; so := o |}.
Definition px_thr (pid until : Z) : thr :=
  {| t_pid := pid; t_until := until; t_running := false; t_moving := false; t_pc := 0x1000; t_swallowed := [] |}.
Definition px_world (evs : list (wevent * Z)) (stop : Z -> stop_answer) : run_world :=
  {| rw_calloc := true; rw_sigmask := true; rw_cont := []; rw_events := evs; rw_stop := stop;
     rw_patient := fun m => m |}.

(** ** C20 *)
Theorem C20_breakpoints_removed brk w ts timeout s rv ts' s' :
  targets_apart (zlen brk) (map t_until ts) ->
  Forall fails_clean (so s) ->
  so (snd (install brk (map t_until ts) [] s)) = [] ->      (* the restoring writes succeed *)
  (forall m x, at_target (zlen brk) (map t_until ts) x -> rw_patient w m x = m x) ->
  execute_until brk w ts timeout s = (Ret (rv, ts'), s') ->
  forall x, (forall m, rw_patient w m x = m x) -> sm s' x = sm s x.
Proof. exact (breakpoints_removed brk w ts timeout s rv ts' s'). Qed.
Print Assumptions C20_breakpoints_removed.

(** One-byte breakpoints (every architecture but RISC-V) cannot overlap. *)
Theorem C20_one_byte_breakpoints_removed w ts timeout s rv ts' s' :
  Forall fails_clean (so s) ->
  so (snd (install break_others (map t_until ts) [] s)) = [] ->
  (forall m x, In x (map t_until ts) -> rw_patient w m x = m x) ->
  execute_until break_others w ts timeout s = (Ret (rv, ts'), s') ->
  forall x, (forall m, rw_patient w m x = m x) -> sm s' x = sm s x.
Proof.
  intros H1 H2 H3 H4. apply (breakpoints_removed break_others w ts timeout s rv ts' s'); auto.
  - intros t u _ _ _ _ H. change (zlen break_others) with 1. lia.
  - intros m x (t & Ht & _ & Hx). change (zlen break_others) with 1 in Hx. unfold in_range in Hx.
    replace x with t by lia. apply H3. replace x with t in Ht by lia. exact Ht.
Qed.
Print Assumptions C20_one_byte_breakpoints_removed.

(** Three threads, two with the same target, the third's breakpoint cannot be
    written: hypotheses hold, the byte was really changed meanwhile. *)
Example C20_case :
  let ts := [px_thr 10 0x1100; px_thr 11 0x1100; px_thr 12 0x1200] in
  let s := px_st [AOk; AOk; AOk; AShort 0] in
  let w := px_world [] (fun _ => SStop 19 0x1050) in
  Forall fails_clean (so s) /\
  so (snd (install break_others (map t_until ts) [] s)) = [] /\
  sm (snd (install break_others (map t_until ts) [] s)) 0x1100 = Some 0xcc /\
  fst (execute_until break_others w ts 3000 s) =
    Ret (0, [px_thr 10 0; px_thr 11 0; px_thr 12 0x1200]) /\
  sm (snd (execute_until break_others w ts 3000 s)) 0x1100 = Some 85.
Proof. split; [repeat constructor|]. repeat split. Qed.

(** RISC-V: breakpoints are four bytes, return addresses can be two bytes apart. *)
Theorem C20_riscv_overlap_refuted : exists ts w timeout s rv ts' x,
  so s = [] /\ (forall m, rw_patient w m = m) /\
  fst (execute_until break_riscv w ts timeout s) = Ret (rv, ts') /\
  sm (snd (execute_until break_riscv w ts timeout s)) x <> sm s x.
Proof.
  exists [px_thr 10 0x1100; px_thr 11 0x1102], (px_world [] (fun _ => SStop 19 0x1050)), 3000, (px_st []).
  do 2 eexists. exists 0x1102. split; [reflexivity|]. split; [reflexivity|]. split; [vm_compute; reflexivity|].
  vm_compute. discriminate.
Qed.
Print Assumptions C20_riscv_overlap_refuted.

(** A four-byte breakpoint written only in part is not counted and stays. *)
Theorem C20_riscv_partial_write_refuted : exists ts w timeout s rv ts' x,
  (forall m, rw_patient w m = m) /\
  so (snd (install break_riscv (map t_until ts) [] s)) = [] /\
  targets_apart 4 (map t_until ts) /\
  fst (execute_until break_riscv w ts timeout s) = Ret (rv, ts') /\
  sm (snd (execute_until break_riscv w ts timeout s)) x <> sm s x.
Proof.
  exists [px_thr 10 0x1100], (px_world [] (fun _ => SStop 19 0x1050)), 3000, (px_st [AOk; AShort 2]).
  do 2 eexists. exists 0x1101. split; [reflexivity|]. split; [reflexivity|]. split.
  - intros t u [<-|[]] [<-|[]] _ _ H. congruence.
  - split; [vm_compute; reflexivity|]. vm_compute. discriminate.
Qed.
Print Assumptions C20_riscv_partial_write_refuted.

(** ** C21 *)
Theorem C21_code_and_registers_restored (regs : Type) (enter : regs -> regs -> regs)
    (func : mem -> regs -> bool * mem * regs) base code pregs r0 s rv r p s' :
  (forall m r x, in_range x base (zlen code) -> snd (fst (func m r)) x = m x) ->
  so (snd (execute_front regs enter func base code pregs r0 s)) = [] ->   (* the restoring write succeeds *)
  execute_remote regs enter func base code pregs r0 s = (Ret (rv, r, p), s') ->
  (forall x, in_range x base (zlen code) \/ (forall m r, snd (fst (func m r)) x = m x) -> sm s' x = sm s x) /\
  (rv = 0 -> r = r0).
Proof. intros H. exact (remote_restores regs enter func base code H pregs r0 s rv r p s'). Qed.
Print Assumptions C21_code_and_registers_restored.

(** The call that maps a page, and the same with the second register access failing
    after the code has been written. *)
Definition px_kernel (m : mem) : mem * Z := (mmap_fixed m 0x8000 0x1000, 0x8000).
Example C21_case :
  let run o := syscall_remote [(true, Stopped 11); (true, Stopped 5)] true px_kernel 0x1000 9 77 (px_st o) in
  fst (run []) = Ret (0, 77, 0x8000) /\ sm (snd (run [])) 0x1000 = sm (px_st []) 0x1000 /\
  sm (snd (run [])) 0x8000 = Some 0 /\
  fst (run [AOk; AOk; AOk; AShort 0]) = Ret (-1, 77, 9) /\
  sm (snd (run [AOk; AOk; AOk; AShort 0])) 0x1001 = sm (px_st []) 0x1001.
Proof. vm_compute. repeat split. Qed.

(** Without success the registers can stay changed: the thread is left inside the
    scratch code with the arguments of the call. *)
Theorem C21_registers_after_failure_refuted : exists base code pregs r0 (func : mem -> Z -> bool * mem * Z) s rv r p,
  so s = [] /\ (forall m r x, snd (fst (func m r)) x = m x) /\
  fst (execute_remote Z (fun a _ => a) func base code pregs r0 s) = Ret (rv, r, p) /\ rv < 0 /\ r <> r0.
Proof.
  exists 0x1000, syscall_code, 9, 77, (fun m r => (false, m, r)), (px_st []), (-1), 9, 9.
  split; [reflexivity|]. split; [reflexivity|]. split; [vm_compute; reflexivity|]. lia.
Qed.
Print Assumptions C21_registers_after_failure_refuted.

(** ** C22 *)
Theorem C22_write_exact up ei a bs s : 0 <= a -> a + zlen bs <= 2 ^ 63 ->
  match process_mem_write up ei a bs s with
  | (Ret up', s') => up' = (up && negb ei) /\ holds_write (sm s) a bs (sm s')
  | (Err, s') | (Die, s') => holds_part (sm s) a bs (sm s')
  | _ => False
  end.
Proof. exact (write_either_path up ei a bs s). Qed.
Print Assumptions C22_write_exact.

Theorem C22_fallback_succeeds a bs s : 0 <= a -> a + zlen bs <= 2 ^ 63 -> so s = [] ->
  mapped (sm s) a (8 * ((zlen bs + 7) / 8)) ->
  exists s', mem_write_ptrace a bs s = (Ret tt, s').
Proof. intros H1 H2 H3 H4. exact (write_words_quiet (length bs / 8) a bs s eq_refl H1 H2 H3 H4). Qed.
Print Assumptions C22_fallback_succeeds.

Example C22_case :
  let bs := [1;2;3;4;5;6;7;8;9;10;11] in
  fst (mem_write_ptrace 0x1003 bs (px_st [])) = Ret tt /\
  mread (sm (snd (mem_write_ptrace 0x1003 bs (px_st [])))) 0x1000 17 =
    Some [80;81;82;1;2;3;4;5;6;7;8;9;10;11;94;95;96] /\
  mapped (sm (px_st [])) 0x1003 (8 * ((zlen bs + 7) / 8)).
Proof.
  split; [vm_compute; reflexivity|]. split; [vm_compute; reflexivity|].
  intros x Hx. unfold in_range in Hx. cbn in Hx. cbn [sm px_st]. unfold px_mem.
  replace ((0x1000 <=? x) && (x <? 0x3000)) with true by lia. discriminate.
Qed.

(** The fallback needs whole words: the last bytes of a mapping cannot be written. *)
Theorem C22_end_of_mapping_refuted : exists a bs s,
  so s = [] /\ mapped (sm s) a (zlen bs) /\
  fst (process_mem_write true false a bs s) = Ret true /\
  fst (process_mem_write true true a bs s) = Err.
Proof.
  exists 0x2ffe, [1; 2], (px_st []). split; [reflexivity|]. split.
  - intros x Hx. unfold in_range in Hx. cbn in Hx. cbn [sm px_st]. unfold px_mem.
    replace ((0x1000 <=? x) && (x <? 0x3000)) with true by lia. discriminate.
  - split; vm_compute; reflexivity.
Qed.
Print Assumptions C22_end_of_mapping_refuted.

(** ** C23 *)
(** Readable memory, no failing pread: any sequence of reads is right. *)
Theorem C23_reads_right_partial pg s reqs : so s = [] -> page_ok pg ->
  Forall (fun r => 0 < snd r /\ 0 <= fst r /\ fst r + pg <= 2 ^ 63 /\ mapped (sm s) (fst r) (snd r)) reqs ->
  exists l, peeks pg (iter_init pg) reqs s = (l, s) /\
    Forall2 (fun r res => exists bs, res = Some bs /\ mread (sm s) (fst r) (Z.to_nat (snd r)) = Some bs) reqs l.
Proof.
  intros H1 H2 H3. apply peeks_right; auto. apply iter_init_ok.
  pose proof (page_facts pg H2). lia.
Qed.
Print Assumptions C23_reads_right_partial.

Example C23_case :
  let reqs := [(0x1100, 8); (0x1104, 8); (0x10f0, 16); (0x2fff, 1); (0x1000, 0x1800)] in
  page_ok 0x1000 /\
  Forall (fun r => 0 < snd r /\ 0 <= fst r /\ fst r + 0x1000 <= 2 ^ 63 /\ mapped px_mem (fst r) (snd r)) reqs.
Proof.
  split; [exists 12; split; [lia|reflexivity]|].
  repeat constructor; cbn; try lia; intros x Hx; unfold in_range in Hx; unfold px_mem;
  replace ((0x1000 <=? x) && (x <? 0x3000)) with true by lia; discriminate.
Qed.

(** Unreadable memory reported as read: the first read of the reader, and a read
    after one that came up short. *)
Theorem C23_unreadable_reported_read_refuted : exists pg s a n bs,
  so s = [] /\ ~ mapped (sm s) a n /\
  fst (peeks pg (iter_init pg) [(a, n)] s) = [Some bs].
Proof.
  exists 16, (px_st []), 0x5000, 8, [0;0;0;0;0;0;0;0].
  split; [reflexivity|]. split; [|vm_compute; reflexivity].
  intros H. apply (H 0x5000); [unfold in_range; lia|reflexivity].
Qed.
Print Assumptions C23_unreadable_reported_read_refuted.

Theorem C23_stale_after_short_read_refuted : exists pg s r1 r2 a n bs b1,
  so s = [] /\ ~ mapped (sm s) a n /\
  fst (peeks pg (iter_init pg) [r1; r2; (a, n)] s) = [Some b1; None; Some bs] /\
  mread (sm s) (fst r1) (Z.to_nat (snd r1)) = Some b1.
Proof.
  exists 64, (px_st []), (0x1000, 8), (0x2ff0, 32), 0x3008, 8.
  eexists. exists [80;81;82;83;84;85;86;87].
  split; [reflexivity|]. split.
  - intros H. apply (H 0x3008); [unfold in_range; lia|reflexivity].
  - split; vm_compute; reflexivity.
Qed.
Print Assumptions C23_stale_after_short_read_refuted.

(** ** C24 *)
Theorem C24_mmap_classified rv res : (rv = -1 \/ rv = 0) -> 0 <= res < 2 ^ 64 ->
  (mmap_result rv res = 0 <-> rv = -1 \/ (exists e, 1 <= e <= 4095 /\ res = 2 ^ 64 - e) \/ res = 0) /\
  (mmap_result rv res <> 0 -> mmap_result rv res = res).
Proof.
  intros Hr H. unfold mmap_result, kernel_error_bound. change (2 ^ 64) with 18446744073709551616 in *.
  destruct (rv <? 0) eqn:E1; [split; [split; intros; [lia|reflexivity]|lia]|].
  destruct ((rv =? 0) && (18446744073709551616 - 4095 <=? res)) eqn:E2.
  - split; [split; intros; [right; left; exists (18446744073709551616 - res); lia|reflexivity]|lia].
  - split; [split|auto]; intros Q; [auto|].
    destruct Q as [Q|[(e & He & Q)|Q]]; lia.
Qed.
Print Assumptions C24_mmap_classified.

Theorem C24_status_classified rv res : (rv = -1 \/ rv = 0) -> 0 <= res < 2 ^ 64 ->
  (status_result rv res = -1 \/ status_result rv res = 0) /\
  (status_result rv res = -1 <-> rv = -1 \/ exists e, 1 <= e <= 4095 /\ res = 2 ^ 64 - e).
Proof.
  intros Hr H. unfold status_result, kernel_error_bound. change (2 ^ 64) with 18446744073709551616 in *.
  destruct (rv <? 0) eqn:E1; [split; [lia|split; intros; [lia|reflexivity]]|].
  destruct ((rv =? 0) && (18446744073709551616 - 4095 <=? res)) eqn:E2.
  - split; [lia|split; intros; [right; exists (18446744073709551616 - res); lia|reflexivity]].
  - split; [lia|split; intros Q; [lia|]].
    destruct Q as [Q|(e & He & Q)]; lia.
Qed.
Print Assumptions C24_status_classified.

Example C24_case : mmap_result 0 (2 ^ 64 - 12) = 0 /\ mmap_result 0 (2 ^ 64 - 4096) = 2 ^ 64 - 4096 /\
  status_result 0 (2 ^ 64 - 1) = -1 /\ status_result 0 0 = 0 /\ status_result (-1) 0 = -1.
Proof. repeat split. Qed.

(** ** C25 *)
(** Thread ids are not used again while attaching goes on. *)
Theorem C25_all_threads_held env w w' :
  (forall c w, world_fine w -> env_step w (env c w)) -> world_fine w ->
  process_attach env w = (true, w') ->
  incl (live w') (held w') /\
  forall w'', env_step w' w'' -> incl (live w'') (held w'').
Proof. intros H. exact (attach_holds_all env H w w'). Qed.
Print Assumptions C25_all_threads_held.

(** A patient whose thread 2 starts thread 4 while the tool attaches to 1. *)
Definition px_env (c : nat) (w : pworld) : pworld :=
  if Nat.eqb c 1 && existsb (Z.eqb 2) (live w) && negb (existsb (Z.eqb 2) (held w))
     && negb (existsb (Z.eqb 4) (used w))
  then {| live := live w ++ [4]; held := held w; used := 4 :: used w |} else w.
Example C25_case :
  (forall c w, world_fine w -> env_step w (px_env c w)) /\
  world_fine {| live := [1; 2; 3]; held := []; used := [1; 2; 3] |} /\
  process_attach px_env {| live := [1; 2; 3]; held := []; used := [1; 2; 3] |} =
    (true, {| live := [1; 2; 3; 4]; held := [4; 3; 2; 1]; used := [4; 1; 2; 3] |}).
Proof.
  assert (F : forall l : list Z, filter (fun t => negb (existsb (Z.eqb t) [])) l = l).
  { induction l as [|a r IH]; cbn in *; congruence. }
  split; [|split; [|reflexivity]].
  - intros c w _. unfold px_env.
    destruct (Nat.eqb c 1 && existsb (Z.eqb 2) (live w) && negb (existsb (Z.eqb 2) (held w))
              && negb (existsb (Z.eqb 4) (used w))) eqn:E.
    + apply andb_prop in E. destruct E as [E E4]. apply andb_prop in E. destruct E as [E E3].
      apply andb_prop in E. destruct E as [E E2].
      split; [reflexivity|]. exists [], [4]. rewrite F. split; [intros ? []|]. split; [reflexivity|].
      split; [|split; [|reflexivity]].
      * intros t [<-|[]] Q. apply (existsb_eqb 4) in Q. rewrite Q in E4. discriminate.
      * intros Q. specialize (Q 2 (proj1 (existsb_eqb 2 _) E2)). apply (existsb_eqb 2) in Q.
        rewrite Q in E3. discriminate.
    + split; [reflexivity|]. exists [], []. rewrite F, app_nil_r. repeat split; intros ? [].
  - split; intros t Ht; [exact Ht|destruct Ht].
Qed.

(** With thread ids used again a thread can be missed (the FIXME at
    kpatch_process.c:759-763). *)
Definition px_reuse (c : nat) (w : pworld) : pworld :=
  if list_eqb (live w) [1; 2; 3] && list_eqb (held w) []
  then {| live := [1; 3; 4; 2]; held := []; used := 4 :: used w |} else w.
Theorem C25_id_reuse_refuted : exists env w w',
  (forall c w, env_step_reuse w (env c w)) /\ world_fine w /\
  process_attach env w = (true, w') /\ exists t, In t (live w') /\ ~ In t (held w').
Proof.
  exists px_reuse, {| live := [1; 2; 3]; held := []; used := [1; 2; 3] |},
    {| live := [1; 3; 4; 2]; held := [3; 2; 1]; used := [4; 1; 2; 3] |}.
  split; [|split; [|split]].
  - intros c w. unfold px_reuse.
    destruct (list_eqb (live w) [1; 2; 3] && list_eqb (held w) []) eqn:E.
    + apply andb_prop in E. destruct E as [E1 E2]. apply list_eqb_eq in E1. apply list_eqb_eq in E2.
      split; [cbn; congruence|]. exists [2], [4; 2]. rewrite E1, E2. split; [intros ? ? []|].
      split; [reflexivity|]. split.
      * intros t [<-|[<-|[]]]; [right; cbn; lia|left; left; reflexivity].
      * intros Q. destruct (Q 1 (or_introl eq_refl)).
    + split; [reflexivity|]. exists [], []. split; [intros ? []|]. split.
      * rewrite app_nil_r. clear. induction (live w) as [|a r IH]; cbn in *; congruence.
      * split; [intros ? []|reflexivity].
  - split; intros t Ht; [exact Ht|destruct Ht].
  - vm_compute. reflexivity.
  - exists 4. split; [cbn; auto|]. cbn. lia.
Qed.
Print Assumptions C25_id_reuse_refuted.

(** ** C62: the temporary breakpoint stops the thread *)
Lemma install_bytes brk bk s s' t : t <> 0 -> install brk [t] [] s = (Ret (bk, true), s') ->
  exists m, mapped m t (zlen brk) /\ forall x, sm s' x = mset m t brk x.
Proof.
  intros Ht H. cbn [install] in H. replace (t =? 0) with false in H by lia. cbn [existsb] in H.
  pose proof (read_sm t (length brk) s) as RS. pose proof (read_ret t (length brk) s) as RR.
  destruct (mem_read t (length brk) s) as [[o| | | |] s1]; try discriminate.
  specialize (RR o s1 eq_refl). cbn [snd] in RS.
  pose proof (mem_write_post t brk s1) as W.
  destruct (mem_write t brk s1) as [[u| | | |] s2]; try discriminate; try contradiction.
  injection H as _ <-. exists (sm s1). split; [|exact W].
  intros x Hx. rewrite RS. apply mread_spec in RR. destruct RR as [_ D]. rewrite D; [discriminate|exact Hx].
Qed.

(** x86-64: the byte at the target is INT3 (0xcc); RISC-V: the word is EBREAK. *)
Theorem C62_x86_riscv_breakpoint_traps t s s' bk : t <> 0 ->
  (install break_others [t] [] s = (Ret (bk, true), s') -> sm s' t = Some 0xcc) /\
  (install break_riscv [t] [] s = (Ret (bk, true), s') ->
     exists w, mread (sm s') t 4 = Some w /\ riscv_ebreak (le_val w)).
Proof.
  intros Ht. split; intros H; destruct (install_bytes _ _ _ _ _ Ht H) as (m & _ & E).
  - rewrite E, mset_in by (unfold in_range; cbn; lia). rewrite Z.sub_diag. reflexivity.
  - exists break_riscv. split; [|reflexivity].
    rewrite (mread_ext _ (mset m t break_riscv)) by (intros; apply E). apply (mread_mset_same m t break_riscv).
Qed.
Print Assumptions C62_x86_riscv_breakpoint_traps.
Example C62_case : exists bk, fst (install break_others [0x1100] [] (px_st [])) = Ret (bk, true).
Proof. eexists. vm_compute. reflexivity. Qed.

Lemma read4_low s' m t w : (forall x, sm s' x = mset m t break_others x) -> mread (sm s') t 4 = Some w ->
  bytes_ok w -> exists b, 0 <= b < 2 ^ 24 /\ le_val w = 0xcc + 256 * b.
Proof.
  intros E H Hb. pose proof H as H'. apply mread_spec in H. destruct H as [L D].
  destruct w as [|a [|b [|c [|d [|? ?]]]]]; try discriminate.
  assert (Ha : a = 0xcc).
  { assert (Q : sm s' t = Some a) by (rewrite D by (unfold in_range; lia); rewrite Z.sub_diag; reflexivity).
    rewrite E, mset_in in Q by (unfold in_range; cbn; lia). rewrite Z.sub_diag in Q. cbn in Q. congruence. }
  inversion Hb as [|? ? _ Hb1]; subst. exists (le_val [b; c; d]).
  pose proof (le_val_range [b; c; d] Hb1) as R. split; [exact R|]. reflexivity.
Qed.

(** AArch64: whatever was there, the word at the target is not a BRK. *)
Theorem C62_aarch64_never_a_breakpoint_refuted t s s' bk w : t <> 0 ->
  install break_others [t] [] s = (Ret (bk, true), s') ->
  mread (sm s') t 4 = Some w -> bytes_ok w -> ~ a64_brk (le_val w).
Proof.
  intros Ht H Hr Hb. destruct (install_bytes _ _ _ _ _ Ht H) as (m & _ & E).
  destruct (read4_low s' m t w E Hr Hb) as (b & _ & ->). unfold a64_brk. intros Q.
  assert (K : Z.testbit (Z.land (0xcc + 256 * b) 0xffe0001f) 3 = Z.testbit 0xd4200000 3) by (rewrite Q; reflexivity).
  rewrite Z.land_spec in K.
  replace (Z.testbit (0xcc + 256 * b) 3) with true in K; [discriminate|].
  symmetry. rewrite Z.testbit_true by lia.
  replace (0xcc + 256 * b) with (25 * 2 ^ 3 + 4 + (32 * b) * 2 ^ 3) by lia.
  rewrite Z.div_add by lia. rewrite Z.div_add_l by lia. change (4 / 2 ^ 3) with 0.
  replace (25 + 0 + 32 * b) with (1 + (12 + 16 * b) * 2) by lia. rewrite Z.mod_add by lia. reflexivity.
Qed.
Print Assumptions C62_aarch64_never_a_breakpoint_refuted.

(** LoongArch: the word is a BREAK only if it was one before. *)
Theorem C62_loongarch_not_a_breakpoint_refuted t s s' bk w w0 : t <> 0 ->
  install break_others [t] [] s = (Ret (bk, true), s') ->
  mread (sm s) t 4 = Some w0 -> bytes_ok w0 -> ~ loong_break (le_val w0) ->
  mread (sm s') t 4 = Some w -> bytes_ok w -> ~ loong_break (le_val w).
Proof.
  intros Ht H H0 Hb0 HN Hr Hb Q. apply HN. clear HN.
  assert (T : forall k, (1 <= k < 4)%nat -> nth k w 0 = nth k w0 0).
  { intros k Hk. cbn [install] in H. replace (t =? 0) with false in H by lia. cbn [existsb] in H.
    pose proof (read_sm t (length break_others) s) as RS.
    destruct (mem_read t (length break_others) s) as [[o| | | |] s1]; try discriminate.
    cbn [snd] in RS. pose proof (mem_write_post t break_others s1) as W.
    destruct (mem_write t break_others s1) as [[u| | | |] s2]; try discriminate; try contradiction.
    injection H as _ <-. unfold wpost in W.
    apply mread_spec in H0. destruct H0 as [_ D0]. apply mread_spec in Hr. destruct Hr as [_ D].
    assert (X : Some (nth k w 0) = Some (nth k w0 0)); [|congruence].
    replace k with (Z.to_nat ((t + Z.of_nat k) - t)) by lia.
    rewrite <- D by (unfold in_range; lia). rewrite <- D0 by (unfold in_range; lia).
    rewrite W, mset_out, RS by (unfold in_range; cbn; lia). reflexivity. }
  apply mread_length in H0. apply mread_length in Hr.
  destruct w as [|a [|b [|c [|d [|? ?]]]]]; try discriminate.
  destruct w0 as [|a0 [|b0 [|c0 [|d0 [|? ?]]]]]; try discriminate.
  pose proof (T 1%nat ltac:(lia)) as T1. pose proof (T 2%nat ltac:(lia)) as T2. pose proof (T 3%nat ltac:(lia)) as T3.
  cbn in T1, T2, T3. subst. unfold loong_break in *. rewrite <- Q.
  inversion Hb as [|? ? Ba Hb']; subst. inversion Hb0 as [|? ? Ba0 Hb0']; subst.
  pose proof (le_val_range _ Hb') as R.
  assert (G : forall x, 0 <= x < 256 -> le_val [x; b0; c0; d0] / 2 ^ 15 = le_val [b0; c0; d0] / 2 ^ 7).
  { intros x Hx. change (le_val [x; b0; c0; d0]) with (x + 256 * le_val [b0; c0; d0]).
    change (2 ^ 15) with (256 * 2 ^ 7). rewrite <- Z.div_div by lia. f_equal.
    rewrite Z.mul_comm, Z.div_add by lia. rewrite Z.div_small by lia. reflexivity. }
  rewrite !G; auto.
Qed.
Print Assumptions C62_loongarch_not_a_breakpoint_refuted.
Example C62_case_arm : exists bk w, fst (install break_others [0x1100] [] (px_st [])) = Ret (bk, true) /\
  mread (sm (snd (install break_others [0x1100] [] (px_st [])))) 0x1100 4 = Some w /\ bytes_ok w /\
  mread (sm (px_st [])) 0x1100 4 = Some [85; 86; 87; 88] /\ ~ loong_break (le_val [85; 86; 87; 88]).
Proof.
  eexists. eexists. split; [vm_compute; reflexivity|]. split; [vm_compute; reflexivity|].
  split; [repeat constructor; cbv; congruence|]. split; [vm_compute; reflexivity|]. cbv. discriminate.
Qed.

(** ** C63: after running forward every thread is stopped again *)
(** Nothing went wrong in the wait; see [event_fine]. *)
Theorem C63_threads_stopped_partial brk w ts timeout s rv ts' s' :
  Forall (fun t => t_moving t = false /\ t_running t = false) ts ->
  (forall b, In b (rw_cont w) -> b = true) ->
  (forall p, rw_stop w p <> SChild) ->
  events_fine brk (rw_events w) (fst (fst (resume (rw_cont w) ts))) ->
  execute_until brk w ts timeout s = (Ret (rv, ts'), s') ->
  Forall (fun t => t_moving t = false /\ t_running t = false) ts'.
Proof. exact (threads_stopped brk w ts timeout s rv ts' s'). Qed.
Print Assumptions C63_threads_stopped_partial.
Example C63_case :
  let w := px_world [(WStop 10 5 0x1101 true true, 2); (WNone, 5); (WFail 11, 3000)] (fun _ => SStop 19 0x1050) in
  let ts := [px_thr 10 0x1100; px_thr 11 0x1200] in
  events_fine break_others (rw_events w) (fst (fst (resume (rw_cont w) ts))) /\
  match fst (execute_until break_others w ts 3000 (px_st [])) with
  | Ret (rv, ts') => map t_pc ts' = [0x1100; 0x1050]
  | _ => False
  end.
Proof.
  split; [|vm_compute; reflexivity].
  split; [|split; [exact I|split; [split; discriminate|exact I]]].
  split; [reflexivity|]. split; [reflexivity|]. eexists.
  split; [reflexivity|]. split; [discriminate|reflexivity].
Qed.

(** A stop at the wrong place (any other signal): errno is set to ESRCH, so no
    thread is waited for; thread 11 is still moving. *)
Theorem C63_still_moving_refuted : exists w ts timeout s rv ts',
  Forall (fun t => t_moving t = false /\ t_running t = false) ts /\
  rw_cont w = [] /\ (forall p, exists sig pc, rw_stop w p = SStop sig pc) /\ so s = [] /\
  fst (execute_until break_others w ts timeout s) = Ret (rv, ts') /\
  exists t, In t ts' /\ t_moving t = true /\ t_running t = false.
Proof.
  exists (px_world [(WStop 10 28 0x1080 true true, 2)] (fun _ => SStop 19 0x1050)),
    [px_thr 10 0x1100; px_thr 11 0x1200], 3000, (px_st []).
  do 2 eexists. split; [repeat constructor|]. split; [reflexivity|]. split; [intros p; do 2 eexists; reflexivity|].
  split; [reflexivity|]. split; [vm_compute; reflexivity|].
  eexists. split; [right; left; reflexivity|]. split; reflexivity.
Qed.
Print Assumptions C63_still_moving_refuted.

(** A thread that has run into its breakpoint just when the time is up is
    collected with the program counter after the breakpoint, which is then
    replaced by the original instruction: it goes on in the middle of it. *)
Theorem C63_pc_after_breakpoint_refuted : exists w ts timeout s rv ts',
  so s = [] /\ rw_cont w = [] /\
  fst (execute_until break_others w ts timeout s) = Ret (rv, ts') /\
  exists t0 t, In t0 ts /\ In t ts' /\ t_pid t0 = t_pid t /\
    rw_stop w (t_pid t) = SStop 5 (t_until t0 + 1) /\ t_pc t = t_until t0 + 1.
Proof.
  exists (px_world [(WFail 11, 3000)] (fun _ => SStop 5 0x1101)), [px_thr 10 0x1100], 3000, (px_st []).
  do 2 eexists. split; [reflexivity|]. split; [reflexivity|]. split; [vm_compute; reflexivity|].
  do 2 eexists. split; [left; reflexivity|]. split; [left; reflexivity|]. repeat split.
Qed.
Print Assumptions C63_pc_after_breakpoint_refuted.

(** ** C64: not reaching the targets is reported *)
Theorem C64_failure_reported_as_success_refuted : exists w ts timeout s ts',
  so s = [] /\ fst (execute_until break_others w ts timeout s) = Ret (0, ts') /\
  exists t0 t, In t0 ts /\ In t ts' /\ t_pid t0 = t_pid t /\ t_until t0 <> 0 /\ t_pc t <> t_until t0.
Proof.
  exists (px_world [(WFail 11, 3000)] (fun _ => SStop 19 0x1050)), [px_thr 10 0x1100], 3000, (px_st []).
  eexists. split; [reflexivity|]. split; [vm_compute; reflexivity|].
  do 2 eexists. split; [left; reflexivity|]. split; [left; reflexivity|]. repeat split; discriminate.
Qed.
Print Assumptions C64_failure_reported_as_success_refuted.

Theorem C64_lost_restore_reported_as_success_refuted : exists w ts timeout s ts' x,
  (forall m, rw_patient w m = m) /\
  fst (execute_until break_others w ts timeout s) = Ret (0, ts') /\
  sm (snd (execute_until break_others w ts timeout s)) x <> sm s x.
Proof.
  exists (px_world [(WStop 10 5 0x1101 true true, 1); (WStop 11 5 0x1201 true true, 1)] (fun _ => SStop 19 0x1050)),
    [px_thr 10 0x1100; px_thr 11 0x1200], 3000, (px_st [AOk; AOk; AOk; AOk; AShort 0]).
  eexists. exists 0x1100. split; [reflexivity|]. split; [vm_compute; reflexivity|].
  vm_compute. discriminate.
Qed.
Print Assumptions C64_lost_restore_reported_as_success_refuted.

(** ** C65: signals that arrive meanwhile reach the thread *)
Theorem C65_remote_execution_passes_signals_on evs sent :
  wait_for_stop evs 0 = (Some 0, sent) ->
  exists pre last rest, evs = pre ++ last :: rest /\
    (snd last = Stopped sigstop \/ snd last = Stopped sigtrap) /\
    (forall e, In e pre -> snd e <> WaitErr /\ snd e <> Stopped sigstop /\ snd e <> Stopped sigtrap) /\
    sent = 0 :: map (fun e => sig_of (snd e)) pre.
Proof. exact (wait_for_stop_signals evs 0 sent). Qed.
Print Assumptions C65_remote_execution_passes_signals_on.

Theorem C65_attach_passes_signals_on evs sent :
  attach_wait evs = (Some 0, sent) ->
  exists pre last rest, evs = pre ++ last :: rest /\ fst last = Stopped sigstop /\
    (forall e, In e pre -> fst e <> WaitErr /\ fst e <> Stopped sigstop) /\
    sent = map (fun e => if (match fst e with Stopped s => s =? sigtrap | _ => false end) then 0 else sig_of (fst e)) pre.
Proof. exact (attach_wait_signals evs sent). Qed.
Print Assumptions C65_attach_passes_signals_on.
Example C65_case :
  wait_for_stop [(true, Stopped 17); (true, Stopped 28); (true, Stopped 5)] 0 = (Some 0, [0; 17; 28]) /\
  attach_wait [(Stopped 17, true); (Stopped 19, true)] = (Some 0, [17]).
Proof. split; reflexivity. Qed.

(** Running forward to a breakpoint swallows them. *)
Theorem C65_run_forward_swallows_refuted : exists w ts timeout s rv ts',
  so s = [] /\ Forall (fun t => t_swallowed t = []) ts /\
  fst (execute_until break_others w ts timeout s) = Ret (rv, ts') /\
  exists t, In t ts' /\ t_swallowed t <> [].
Proof.
  exists (px_world [(WStop 10 28 0x1080 true true, 2)] (fun _ => SStop 19 0x1050)), [px_thr 10 0x1100], 3000, (px_st []).
  do 2 eexists. split; [reflexivity|]. split; [repeat constructor|]. split; [vm_compute; reflexivity|].
  eexists. split; [left; reflexivity|discriminate].
Qed.
Print Assumptions C65_run_forward_swallows_refuted.

(** ** C66: a remote system call is reported done only if it was done *)
(** mprotect (number 10) with a pending SIGSTOP: the thread stops before the first
    instruction, the stop is taken for the end, and the register that still holds
    the call's number is taken for the kernel's answer. *)
Theorem C66_not_executed_but_success_refuted : exists evs kernel s rv r p,
  so s = [] /\ evs = [(true, Stopped sigstop)] /\
  fst (syscall_remote evs false kernel 0x1000 10 77 s) = Ret (rv, r, p) /\ rv = 0 /\ status_result rv p = 0.
Proof.
  exists [(true, Stopped sigstop)], px_kernel, (px_st []), 0, 77, 10.
  split; [reflexivity|]. split; [reflexivity|]. split; [vm_compute; reflexivity|]. split; reflexivity.
Qed.
Print Assumptions C66_not_executed_but_success_refuted.

(** When the thread did run to the end, the result is the kernel's. *)
Theorem C66_result_is_the_kernels_partial evs kernel libc nr rax0 s rv r p s' :
  syscall_remote evs true kernel libc nr rax0 s = (Ret (rv, r, p), s') -> rv = 0 ->
  exists m, p = snd (kernel m).
Proof.
  unfold syscall_remote, execute_remote, bind. intros H Hr.
  destruct (execute_front Z _ _ libc syscall_code nr rax0 s) as [[[[[rv1 r1] p1] o]| | | |] s1] eqn:E; try discriminate.
  assert (HP : rv = rv1 /\ p = p1).
  { destruct (execute_back libc o s1) as [[u| | | |] s2]; try discriminate. injection H as -> _ -> _. auto. }
  destruct HP as [-> ->]. clear H. subst rv1. unfold execute_front, bind, ret in E.
  destruct (getset s) as [[ok| | | |] s0]; try discriminate. destruct ok; cbn [negb] in E; [|discriminate].
  destruct (mem_read libc (length syscall_code) s0) as [[orig| | | |] s2]; try discriminate.
  destruct (mem_write libc syscall_code s2) as [[u| | | |] s3]; try discriminate.
  destruct (getset s3) as [[ok| | | |] s4]; try discriminate. destruct ok; cbn [negb] in E; [|discriminate].
  unfold syscall_func in E. exists (sm s4). destruct (kernel (sm s4)) as [m v]. cbn [snd].
  destruct (fst (wait_for_stop evs 0)) as [[| |]|]; cbn [negb] in E; try discriminate.
  destruct (getset (with_sm s4 m)) as [[ok| | | |] s5]; try discriminate. destruct ok; cbn [negb] in E; [|discriminate].
  destruct (getset s5) as [[ok| | | |] s6]; try discriminate. destruct ok; cbn [negb] in E; [|discriminate].
  injection E as _ <- _ _. reflexivity.
Qed.
Print Assumptions C66_result_is_the_kernels_partial.
Example C66_case : fst (syscall_remote [(true, Stopped 5)] true px_kernel 0x1000 9 77 (px_st [])) = Ret (0, 77, 0x8000).
Proof. vm_compute. reflexivity. Qed.
