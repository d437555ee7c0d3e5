(** Writing the patient's memory word by word, temporary breakpoints, running code
    on behalf of the tool, waiting for threads, attaching
    (/repo/src/kpatch_ptrace.c, /repo/src/arch/x86/arch_ptrace.c,
    /repo/src/kpatch_process.c).  Definitions only. *)
From Verif Require Import Base RemoteModel.

(** ** kpatch_process_mem_write_ptrace, kpatch_ptrace.c:59-92 *)

(** PTRACE_POKEDATA of the eight bytes [w] at [a]: fails when not all eight bytes
    are mapped (those before the first unmapped one are written). *)
Definition poke (a : Z) (w : list Z) : M unit := fun s =>
  match pop s with
  | (AOk, s') => let '(k, m') := pwrite (sm s') a w in
                 (if Nat.eqb k (length w) then Ret tt else Err, with_sm s' m')
  | (AShort _, s') => (Err, s')
  | (ADie _, s') => (Die, s')
  end.

(** PTRACE_PEEKDATA, 80-82.  The C library's wrapper sets errno to 0 when the
    request succeeds, so a word of all ones is told from a failure. *)
Definition peek (a : Z) : M (list Z) := mem_read a 8.

(** [n] whole words are left (69-78), then the tail (80-89). *)
Fixpoint write_words (n : nat) (a : Z) (bs : list Z) : M unit :=
  match n with
  | S n' => poke a (firstn 8 bs) ;;; write_words n' (u64 (a + 8)) (skipn 8 bs)
  | O =>
      match bs with
      | [] => ret tt
      | _ => tmp <- peek a ;; poke a (bs ++ skipn (length bs) tmp)
      end
  end.
Definition mem_write_ptrace (a : Z) (bs : list Z) : M unit :=
  write_words (length bs / 8) a bs.

(** kpatch_process_mem_write, kpatch_ptrace.c:94-111: [use_pwrite] is the static
    variable, [einval] says that pwrite(2) fails with EINVAL (kernels on which
    /proc/pid/mem cannot be written).  Returns the new value of the variable too. *)
Definition process_mem_write (use_pwrite einval : bool) (a : Z) (bs : list Z) : M bool :=
  if use_pwrite && negb einval
  then mem_write a bs ;;; ret true
  else mem_write_ptrace a bs ;;; ret false.

(** ** Temporary breakpoints, kpatch_ptrace_execute_until, kpatch_ptrace.c:240-439 *)

(** include/kpatch_ptrace.h:128-134 *)
Definition break_riscv : list Z := [0x73; 0x00; 0x10; 0x00].
Definition break_others : list Z := [0xcc].

(** struct breakpoint, 233-236 *)
Definition bkpt : Type := Z * list Z.

Section Breakpoints.
Variable break_insn : list Z.
Let len : nat := length break_insn.

(** 264-306: returns the installed breakpoints and whether the loop was completed;
    a failing read or write leaves the loop without counting that breakpoint. *)
Fixpoint install (targets : list Z) (bk : list bkpt) : M (list bkpt * bool) :=
  match targets with
  | [] => ret (bk, true)
  | t :: r =>
      if t =? 0 then install r bk
      else if existsb (fun b => fst b =? t) bk then install r bk
      else fun s =>
        match mem_read t len s with
        | (Ret orig, s') =>
            match mem_write t break_insn s' with
            | (Ret _, s'') => install r (bk ++ [(t, orig)]) s''
            | (Err, s'') => (Ret (bk, false), s'')
            | (Die, s'') => (Die, s'')
            | (Hang, s'') => (Hang, s'')
            | (UB, s'') => (UB, s'')
            end
        | (Err, s') => (Ret (bk, false), s')
        | (Die, s') => (Die, s')
        | (Hang, s') => (Hang, s')
        | (UB, s') => (UB, s')
        end
  end.

(** 407-422: put the original bytes back, in the order of installation.  The
    result is that of the last write (-1 or 0; [r0] when there is none). *)
Fixpoint restore (bk : list bkpt) (r0 : Z) : M Z :=
  match bk with
  | [] => ret r0
  | b :: r => fun s =>
      match mem_write (fst b) (snd b) s with
      | (Ret _, s') => restore r 0 s'
      | (Err, s') => restore r (-1) s'
      | (Die, s') => (Die, s')
      | (Hang, s') => (Hang, s')
      | (UB, s') => (UB, s')
      end
  end.

(** *** The threads meanwhile *)

(** struct kpatch_ptrace_ctx as far as it matters here, with two facts about the
    thread itself that the tool does not see: whether it is moving, and the signals
    the kernel reported to the tool that the tool did not pass on. *)
Record thr := { t_pid : Z; t_until : Z; t_running : bool;
                t_moving : bool; t_pc : Z; t_swallowed : list Z }.

Definition set_running (b : bool) (t : thr) : thr :=
  {| t_pid := t_pid t; t_until := t_until t; t_running := b;
     t_moving := t_moving t; t_pc := t_pc t; t_swallowed := t_swallowed t |}.
Definition set_moving (b : bool) (t : thr) : thr :=
  {| t_pid := t_pid t; t_until := t_until t; t_running := t_running t;
     t_moving := b; t_pc := t_pc t; t_swallowed := t_swallowed t |}.
Definition set_pc (pc : Z) (t : thr) : thr :=
  {| t_pid := t_pid t; t_until := t_until t; t_running := t_running t;
     t_moving := t_moving t; t_pc := pc; t_swallowed := t_swallowed t |}.
Definition set_until (u : Z) (t : thr) : thr :=
  {| t_pid := t_pid t; t_until := u; t_running := t_running t;
     t_moving := t_moving t; t_pc := t_pc t; t_swallowed := t_swallowed t |}.
Definition dead (t : thr) : thr :=
  {| t_pid := 0; t_until := t_until t; t_running := false;
     t_moving := false; t_pc := t_pc t; t_swallowed := t_swallowed t |}.
Definition sigtrap : Z := 5.
Definition sigstop : Z := 19.
(** The kernel reports the thread stopped at [pc] by [sig]; the tool does not send
    it on.  SIGTRAP and SIGSTOP are the tool's own doing. *)
Definition stopped_at (pc sig : Z) (t : thr) : thr :=
  {| t_pid := t_pid t; t_until := t_until t; t_running := t_running t;
     t_moving := false; t_pc := pc;
     t_swallowed := if (sig =? sigtrap) || (sig =? sigstop) then t_swallowed t
                    else t_swallowed t ++ [sig] |}.

Definition on_pid (pid : Z) (f : thr -> thr) (ts : list thr) : list thr :=
  map (fun t => if t_pid t =? pid then f t else t) ts.

(** 314-327: PTRACE_CONT for every thread with a target; [ok] answers the calls.
    Returns the threads, how many now run, and whether all calls succeeded. *)
Fixpoint resume (ok : list bool) (ts : list thr) : list thr * Z * bool :=
  match ts with
  | [] => ([], 0, true)
  | t :: r =>
      if t_until t =? 0
      then let '(r', n, b) := resume ok r in (t :: r', n, b)
      else if hd true ok
           then let '(r', n, b) := resume (tl ok) r in
                (set_running true (set_moving true t) :: r', n + 1, b)
           else (ts, 0, false)
  end.

(** What kpatch_arch_ptrace_waitpid (arch/x86/arch_ptrace.c:396-514) meets:
    [WNone]: nothing reportable, it returns 0 (429-431, 440-443);
    [WFail]: waitpid fails, or the time is up, or sigtimedwait fails: -1 (408-426,
    445-448), with the given errno;
    [WKilled ok]: terminated by a signal, PTRACE_CONT tried (451-460);
    [WExit pid]: thread exited (462-471);
    [WStop pid sig pc gr sr]: thread [pid] stopped by [sig] at [pc]; gr, sr answer
    PTRACE_GETREGS and PTRACE_SETREGS (473-511). *)
Inductive wevent :=
  WNone | WFail (errno : Z) | WKilled (ok : bool) | WExit (pid : Z)
| WStop (pid sig pc : Z) (gr sr : bool).

Definition esrch : Z := 3.
Definition echild : Z := 10.

(** Result, threads, and errno when the call sets it. *)
Definition arch_waitpid (e : wevent) (ts : list thr) : Z * list thr * option Z :=
  match e with
  | WNone => (0, ts, None)
  | WFail en => (-1, ts, Some en)
  | WKilled ok => (if ok then 0 else -1, ts, if ok then None else Some esrch)
  | WExit pid => (1, on_pid pid dead ts, None)
  | WStop pid sig pc gr sr =>
      let ts := on_pid pid (stopped_at pc sig) ts in
      if negb gr then (-1, ts, Some esrch)
      else
        (* kpatch_ptrace_find_thread, kpatch_ptrace.c:209-231 *)
        match find (fun t => t_pid t =? pid) ts with
        | Some t =>
            if negb (t_until t =? 0) && (pc =? u64 (t_until t + Z.of_nat len))
            then let ts := on_pid pid (set_running false) ts in
                 if sr then (1, on_pid pid (fun t => set_pc (t_until t) t) ts, None)
                 else (-1, ts, Some esrch)
            else (-1, on_pid pid (set_running false) ts, Some esrch)
        | None => (-1, ts, Some esrch)
        end
  end.

(** 329-365: [evs] are the events with the milliseconds each takes.  Returns the
    threads and errno (0: not set since).  When the list ends, the time is up. *)
Fixpoint wait_loop (evs : list (wevent * Z)) (ts : list thr)
    (running to_be_stopped timeout : Z) (errno : Z) : list thr * Z :=
  if (running =? 0) || (to_be_stopped =? 0) || (timeout <? 0) then (ts, errno)
  else match evs with
  | [] => (ts, errno)
  | (e, dt) :: evs' =>
      let '(rv, ts, en) := arch_waitpid e ts in
      let errno := match en with Some x => x | None => errno end in
      if rv <? 0 then (ts, errno)
      else if rv =? 1 then wait_loop evs' ts (running - 1) (to_be_stopped - 1) (timeout - dt) errno
      else wait_loop evs' ts running to_be_stopped (timeout - dt) errno
  end.

(** How waiting for a thread after SIGSTOP was sent to it ends (386-402): it stops
    at some place by some signal, it exits, or waitpid fails with ECHILD. *)
Inductive stop_answer := SStop (sig pc : Z) | SExit | SChild.

(** 376-405.  The loop condition reads errno (386): once it is ESRCH or ECHILD no
    thread is waited for any more. *)
Fixpoint stop_all (ans : Z -> stop_answer) (ts : list thr) (errno : Z) : list thr :=
  match ts with
  | [] => []
  | t :: r =>
      if negb (t_running t) then t :: stop_all ans r errno
      else if (errno =? esrch) || (errno =? echild)
      then set_running false t :: stop_all ans r errno
      else match ans (t_pid t) with
           | SStop sig pc => set_running false (stopped_at pc sig t) :: stop_all ans r errno
           | SExit => set_moving false (set_running false t) :: stop_all ans r errno
           | SChild => set_running false t :: stop_all ans r echild
           end
  end.

(** What the environment does in one run of the function. *)
Record run_world := {
  rw_calloc : bool;                 (* 260 *)
  rw_sigmask : bool;                (* 311 *)
  rw_cont : list bool;              (* PTRACE_CONT, 320 *)
  rw_events : list (wevent * Z);
  rw_stop : Z -> stop_answer;
  rw_patient : mem -> mem }.        (* what the running threads do to memory *)

(** kpatch_ptrace_execute_until, kpatch_ptrace.c:240-439, without the flag
    EXECUTE_ALL_THREADS.  Returns the C function's result and the threads.
    Simplification: clock_gettime succeeds. *)
Definition execute_until (w : run_world) (ts : list thr) (timeout : Z) : M (Z * list thr) :=
  let has_target := zlen (filter (fun t => negb (t_until t =? 0)) ts) in
  if has_target =? 0 then ret (0, ts)
  else if negb (rw_calloc w) then ret (-1, ts)
  else
    r <- install (map t_until ts) [] ;;
    let '(bk, complete) := r in
    let '(ts1, errno, ret1) :=
      if complete && rw_sigmask w
      then let '(ts1, running, ok) := resume (rw_cont w) ts in
           if ok then let '(ts2, en) := wait_loop (rw_events w) ts1 running has_target timeout 0 in
                      (ts2, en, 0)
           else (ts1, esrch, -1)
      else (ts, 0, if complete then 0 else -1) in
    (fun s => (Ret tt, with_sm s (rw_patient w (sm s)))) ;;;
    let ts2 := stop_all (rw_stop w) ts1 errno in
    rv <- restore bk ret1 ;;
    ret (rv, map (fun t => if existsb (fun b => fst b =? t_until t) bk
                           then set_until 0 t else t) ts2).

End Breakpoints.

(** ** Running code in the patient, arch/x86/arch_ptrace.c:296-372 *)
Section Remote.
(** Registers of the thread; [enter pregs r] is [r] with the program counter at the
    scratch address and the argument registers of [pregs] (337-340, copy_regs
    374-394). *)
Variable regs : Type.
Variable enter : regs -> regs -> regs.
(** [func(pctx, data)]: lets the thread run; result, memory and registers after. *)
Variable func : mem -> regs -> bool * mem * regs.

Definition getset : M bool := fun s =>
  match choice s with
  | (Ret _, s') => (Ret true, s')
  | (Err, s') => (Ret false, s')
  | (Die, s') => (Die, s')
  | (Hang, s') => (Hang, s')
  | (UB, s') => (UB, s')
  end.

(** Up to the label poke_back: the result, the thread's registers, the registers
    handed back, and the saved code ([None]: the function has returned already). *)
Definition execute_front (base : Z) (code : list Z) (pregs r0 : regs)
  : M (Z * regs * regs * option (list Z)) :=
  ok <- getset ;;
  if negb ok then ret (-1, r0, pregs, None)
  else fun s =>
    match mem_read base (length code) s with
    | (Ret orig, s1) =>
        match mem_write base code s1 with
        | (Ret _, s2) =>
            (ok <- getset ;;
             if negb ok then ret (-1, r0, pregs, Some orig)
             else fun s =>
               let '(fok, m, r1) := func (sm s) (enter pregs r0) in
               let s := with_sm s m in
               if negb fok then (Ret (-1, r1, pregs, Some orig), s)
               else (ok <- getset ;;
                     if negb ok then ret (-1, r1, pregs, Some orig)
                     else
                       ok <- getset ;;
                       if negb ok then ret (-1, r1, pregs, Some orig)
                       else ret (0, r0, r1, Some orig)) s) s2
        | (Err, s2) => (Ret (-1, r0, pregs, Some orig), s2)
        | (Die, s2) => (Die, s2)
        | (Hang, s2) => (Hang, s2)
        | (UB, s2) => (UB, s2)
        end
    | (Err, s1) => (Ret (-1, r0, pregs, None), s1)
    | (Die, s1) => (Die, s1)
    | (Hang, s1) => (Hang, s1)
    | (UB, s1) => (UB, s1)
    end.

(** From poke_back on; the result of the write is ignored (366-371). *)
Definition execute_back (base : Z) (orig : option (list Z)) : M unit :=
  match orig with
  | None => ret tt
  | Some bs => fun s =>
      match mem_write base bs s with
      | (Err, s') => (Ret tt, s')
      | r => r
      end
  end.

Definition execute_remote (base : Z) (code : list Z) (pregs r0 : regs) : M (Z * regs * regs) :=
  x <- execute_front base code pregs r0 ;;
  let '(rv, r, pregs', orig) := x in
  execute_back base orig ;;; ret (rv, r, pregs').
End Remote.

(** ** wait_for_stop, kpatch_ptrace.c:441-474 *)

(** What waitpid reports after one PTRACE_CONT; [Ran done]: the thread stopped with
    SIGTRAP having reached the end of the injected code or not. *)
Inductive wstatus := Stopped (sig : Z) | Signaled (sig : Z) | Exited | WaitErr.

(** Each element: whether PTRACE_CONT succeeds, and what waitpid then reports.
    Returns the result and the signals handed to the thread by PTRACE_CONT
    (0: none). *)
Fixpoint wait_for_stop (evs : list (bool * wstatus)) (status : Z) : option Z * list Z :=
  match evs with
  | [] => (None, [])                              (* still waiting *)
  | (cont, w) :: r =>
      if negb cont then (Some (-1), [])
      else
        let '(res, sent) :=
          match w with
          | WaitErr => (Some (-1), [])
          | Stopped sig =>
              if (sig =? sigstop) || (sig =? sigtrap) then (Some 0, [])
              else wait_for_stop r sig
          | Signaled sig => wait_for_stop r sig
          | Exited => wait_for_stop r 0
          end in
        (res, status :: sent)
  end.

(** kpatch_arch_syscall_remote, arch/x86/arch_ptrace.c:198-226, over
    kpatch_execute_remote (kpatch_ptrace.c:476-488).  Of the registers only rax is
    modelled.  [evs] is what wait_for_stop meets, [ran] whether the thread got
    past the system call before it stopped, [kernel] what the call does. *)
Definition syscall_code : list Z := [0x0f; 0x05; 0xcc].
Definition syscall_func (evs : list (bool * wstatus)) (ran : bool) (kernel : mem -> mem * Z)
    (m : mem) (rax : Z) : bool * mem * Z :=
  let '(m', rax') := if ran then kernel m else (m, rax) in
  (match fst (wait_for_stop evs 0) with Some 0 => true | _ => false end, m', rax').
Definition syscall_remote evs ran kernel (libc nr rax0 : Z) : M (Z * Z * Z) :=
  execute_remote Z (fun pregs _ => pregs) (syscall_func evs ran kernel) libc syscall_code nr rax0.

(** kpatch_ptrace_attach_thread, kpatch_ptrace.c:694-749, after PTRACE_ATTACH: the
    waitpid loop; each element is what waitpid reports and whether the PTRACE_CONT
    that follows succeeds. *)
Fixpoint attach_wait (evs : list (wstatus * bool)) : option Z * list Z :=
  match evs with
  | [] => (None, [])
  | (w, cont) :: r =>
      match w with
      | WaitErr => (Some (-1), [])
      | Stopped sig =>
          if sig =? sigstop then (Some 0, [])
          else let status := if sig =? sigtrap then 0 else sig in
               if negb cont then (Some (-1), [])
               else let '(res, sent) := attach_wait r in (res, status :: sent)
      | Signaled sig =>
          if negb cont then (Some (-1), [])
          else let '(res, sent) := attach_wait r in (res, sig :: sent)
      | Exited =>
          if negb cont then (Some (-1), [])
          else let '(res, sent) := attach_wait r in (res, 0 :: sent)
      end
  end.

(** ** Results of remote system calls, kpatch_ptrace.c:517-581.  [rv] is what
    kpatch_arch_syscall_remote returns, [res] the kernel's 64-bit result. *)
Definition kernel_error_bound : Z := 2 ^ 64 - 4095.       (* (unsigned long)-MAX_ERRNO *)
Definition mmap_result (rv res : Z) : Z :=
  if rv <? 0 then 0
  else if (rv =? 0) && (kernel_error_bound <=? res) then 0 else res.
Definition status_result (rv res : Z) : Z :=              (* mprotect, munmap *)
  if rv <? 0 then -1
  else if (rv =? 0) && (kernel_error_bound <=? res) then -1 else 0.

(** ** Attaching to all threads, kpatch_process.c:742-819 *)

(** The threads of the patient: the live ones in the order /proc lists them
    (creation), those held (attached and stopped) by the tool, and all thread ids
    used so far. *)
Record pworld := { live : list Z; held : list Z; used : list Z }.

(** The tool attaches to thread [t] (kpatch_ptrace_attach_thread): fails when it
    does not exist any more. *)
Definition attach_one (t : Z) (w : pworld) : bool * pworld :=
  if existsb (Z.eqb t) (live w)
  then (true, {| live := live w; held := t :: held w; used := used w |})
  else (false, w).

Section Attach.
(** The patient goes on between any two steps of the tool. *)
Variable env : nat -> pworld -> pworld.

(** 781-793; [have]: process_has_thread_pid (709-719).  [c] counts the steps. *)
Fixpoint attach_new (pids : list Z) (c : nat) (w : pworld) : bool * nat * pworld :=
  match pids with
  | [] => (true, c, w)
  | t :: r =>
      if existsb (Z.eqb t) (held w) then attach_new r (S c) (env c w)
      else let '(ok, w') := attach_one t w in
           if ok then attach_new r (S c) (env c w') else (false, S c, w')
  end.

(** 751-796.  [prev]: prevnpids; [first]: nattempts == 0.  The listing is one
    snapshot (Simplification: readdir(3) on /proc/pid/task is treated as atomic). *)
Fixpoint attach_attempts (attempts : nat) (first : bool) (prev : nat) (c : nat) (w : pworld)
  : bool * pworld :=
  match attempts with
  | O => (false, w)                                       (* 798-801 *)
  | S a =>
      let pids := live w in
      if negb first && Nat.eqb prev (length pids) then (true, w)
      else
        let '(ok, c', w') := attach_new (skipn prev pids) (S c) (env c w) in
        if ok then attach_attempts a false (length pids) c' w' else (false, w')
  end.

Definition process_attach (w : pworld) : bool * pworld := attach_attempts 3 true 0 0 w.
End Attach.
