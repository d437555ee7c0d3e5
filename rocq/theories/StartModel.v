(** A program that has just been started: its name and command line
    (kpatch_process.c), its entry point (kpatch_ptrace.c), the first mmap of the dynamic
    loader and the handshake with the execve wrapper (arch/*/arch_ptrace.c).
    Definitions only. *)
From Coq Require Import String.
From Verif Require Import Base StorageModel ProcModel MapsModel PtraceModel.
Open Scope list_scope.

(** ** The entry point *)

(** What read(2) yields: interrupted, failed, bytes (none at the end). *)
Inductive rd := RIntr | RErr | RBytes (bs : list Z).

(** The buffer entry[2] after a read of [bs] into it *)
Definition overwrite (bs buf : list Z) : list Z := bs ++ skipn (length bs) buf.
Definition ulong_at (buf : list Z) (i : nat) : Z := le_val (firstn 8 (skipn (8 * i) buf)).
Definition AT_ENTRY : Z := 9.

(** [EPoint v]: returns 0, *pentry_point is v, [None] when it was not written;
    [EMore]: [rs] is used up. *)
Inductive eres := EPoint (v : option Z) | ENone | EMore.

(** kpatch_ptrace_get_entry_point, kpatch_ptrace.c:171-206, once the file is open. *)
Fixpoint entry_loop (rs : list rd) (buf : list Z) : eres :=
  match rs with
  | [] => EMore
  | RIntr :: r => entry_loop r buf
  | RErr :: _ => if ulong_at buf 0 =? AT_ENTRY then EPoint None else ENone
  | RBytes bs :: r =>
      let buf' := overwrite bs buf in
      if negb (Nat.eqb (length bs) 16)
      then if ulong_at buf' 0 =? AT_ENTRY then EPoint None else ENone
      else if ulong_at buf' 0 =? AT_ENTRY then EPoint (Some (ulong_at buf' 1))
      else entry_loop r buf'
  end.
Definition get_entry_point (rs : list rd) : eres := entry_loop rs (repeat 0 16).

(** ** The name of the program *)

(** The result: an error; the name and is_ld_linux; or memory is read that nothing was
    stored in, or behind a buffer. *)
Inductive cres := CErr | COk (comm : list Z) (ld : bool) | CUndef.

(** strstr: where [pat] starts in [s], cut there *)
Fixpoint cut_at (pat s : list Z) : list Z :=
  if is_prefix pat s then [] else match s with [] => [] | c :: r => c :: cut_at pat r end.

(** A string in memory of which not everything is known: up to the first NUL. *)
Fixpoint c_string (m : list (option Z)) : option (list Z) :=
  match m with
  | Some c :: r => if c =? 0 then Some []
                   else match c_string r with Some s => Some (c :: s) | None => None end
  | _ => None
  end.

(** Where the first NUL is, or the end *)
Fixpoint first_nul (s : list Z) : nat :=
  match s with [] => O | c :: r => if c =? 0 then O else S (first_nul r) end.

(** process_get_comm_ld_linux, kpatch_process.c:861-914.  [path]: the name of the file,
    "/proc/N/cmdline", which is in buf before; [data]: what read gives, at most 1024 bytes,
    [None] when it fails.  The second loop, 896-898, ends at once since p > buf. *)
Definition get_comm_ld_linux (path : list Z) (data : option (list Z)) : cres :=
  match data with
  | None => CErr
  | Some d =>
      let d := firstn 1024 d in
      let old := map Some (path ++ [0]) in
      let buf := map Some d ++ skipn (length d)
                   (old ++ repeat None (1024 - length old)) in
      let p := first_nul d in
      if Nat.eqb p 0 then CErr
      else match c_string (skipn (S p) buf) with
           | Some s => COk (firstn 15 (basename s)) true
           | None => CUndef
           end
  end.

(** process_get_comm, kpatch_process.c:916-945.  [exe]: what /proc/N/exe points to;
    readlink(2) gives at most 4096 bytes and no NUL.  A name of 127 characters or more
    leaves path without a NUL in what was written. *)
Definition get_comm (path : list Z) (exe : option (list Z)) (cmdline : option (list Z)) : cres :=
  match exe with
  | None => CErr
  | Some e =>
      let real := firstn 4096 e in
      if Nat.eqb (length real) 0 then CUndef            (* realpath[-1] = '\0' *)
      else
        let bn := basename (upto_nul (removelast real)) in
        if 127 <=? zlen bn then CUndef
        else let comm := firstn 15 (cut_at (str " (deleted)") bn) in
             if is_prefix (str "ld") comm then get_comm_ld_linux path cmdline
             else COk comm false
  end.

(** is_test_target, kpatch_coro.c:100-104, and the test on the name in is_centos7_qemu,
    106-123 *)
Definition is_test_target (comm name : list Z) : bool := list_eqb comm name.
Definition named_qemu (comm : list Z) : bool := is_prefix (str "qemu-") comm.

(** ** The command line in the output *)

Definition hex_char (d : Z) : Z := if d <? 10 then 48 + d else 87 + d.
Definition is_print (c : Z) : bool := (32 <=? c) && (c <=? 126).
(** process_print_cmdline, kpatch_process.c:821-859: what is printed for a byte.  In the C
    locale; bytes above 127 are negative chars, for which isprint is false. *)
Definition show_byte (c : Z) : list Z :=
  if negb (c =? 10) && is_print c then [c]
  else [92; 120; hex_char (c / 16); hex_char (c mod 16)].
Fixpoint print_cmdline (rs : list rd) : list Z :=
  match rs with
  | [] => []
  | RIntr :: r => print_cmdline r
  | RErr :: _ => []
  | RBytes [] :: _ => []
  | RBytes bs :: r => flat_map show_byte bs ++ print_cmdline r
  end.

(** ** The first mmap *)

(** The registers of the stopped program that matter: the number of the system call, its
    result, the frame pointer, the program counter. *)
Record sregs := { r_nr : Z; r_ret : Z; r_fp : Z; r_pc : Z }.
Inductive arch := X86 | AARCH64 | RISCV | LOONG.

(** The register the number is taken from: orig_rax, arch/x86/arch_ptrace.c:170-173;
    regs[29], the frame pointer, arch/aarch64/arch_ptrace.c:176-179; a7,
    arch/riscv64/arch_ptrace.c:192; regs[REG_A7], arch/loongarch64/arch_ptrace.c:197. *)
Definition nr_of (a : arch) (r : sregs) : Z :=
  match a with AARCH64 => r_fp r | _ => r_nr r end.
(** and the result: rax, regs[8] (the number), a0, REG_PC: x86 180-183, aarch64 187-190,
    riscv64 198, loongarch64 203. *)
Definition ret_of (a : arch) (r : sregs) : Z :=
  match a with AARCH64 => r_nr r | LOONG => r_pc r | _ => r_ret r end.
(** __NR_mmap *)
Definition nr_mmap (a : arch) : Z := match a with X86 => 9 | _ => 222 end.
(** A stop that is not for SIGTRAP is left out on these, riscv64 183, loongarch64 186. *)
Definition only_traps (a : arch) : bool := match a with RISCV | LOONG => true | _ => false end.

(** What waitpid gives after PTRACE_SYSCALL: a failure of one of them, an exit, an end by a
    signal, a stop with its signal and registers. *)
Inductive mstop := MFail | MExit | MSignal | MStop (sig : Z) (r : sregs).
Definition SIGTRAP : Z := 5.

(** The result of wait_for_mmap and the signals handed to the program when it was let go
    on (the data of PTRACE_SYSCALL); [WMore]: [evs] is used up. *)
Inductive wres := WBase (b : Z) | WErr | WMore.

(** wait_for_mmap, arch/x86/arch_ptrace.c:140-196 and its copies.  [ins]: insyscall.
    -1 of PTRACE_PEEKUSER is an error on x86 and aarch64; reading all registers, riscv64
    and loongarch64, is taken to succeed. *)
Fixpoint mmap_loop (a : arch) (evs : list mstop) (ins : Z) (status : Z) : wres * list Z :=
  match evs with
  | [] => (WMore, [status])
  | MFail :: _ => (WErr, [status])
  | MExit :: r => let '(x, l) := mmap_loop a r ins 0 in (x, status :: l)
  | MSignal :: r => let '(x, l) := mmap_loop a r ins 0 in (x, status :: l)
  | MStop sig g :: r =>
      if only_traps a && negb (sig =? SIGTRAP)
      then let '(x, l) := mmap_loop a r ins 0 in (x, status :: l)
      else if ins =? 0 then
        if negb (only_traps a) && (u64 (nr_of a g) =? 2 ^ 64 - 1) then (WErr, [status])
        else let '(x, l) := mmap_loop a r (s32 (nr_of a g)) 0 in (x, status :: l)
      else if ins =? nr_mmap a then (WBase (u64 (ret_of a g)), [status])
      else let '(x, l) := mmap_loop a r 0 0 in (x, status :: l)
  end.
Definition wait_for_mmap (a : arch) (evs : list mstop) : wres * list Z := mmap_loop a evs 0 0.

(** kpatch_ptrace_handle_ld_linux, kpatch_ptrace.c:635-667.  [mem]: 64 bytes at an address
    of the program, [None] when they cannot be read.  e_type is at 16, e_entry at 24 of an
    ELF header; ET_DYN = 3. *)
Definition handle_ld_linux (a : arch) (evs : list mstop) (mem : Z -> option (list Z)) : option Z :=
  match fst (wait_for_mmap a evs) with
  | WBase b =>
      match mem b with
      | Some h => let e := le_val (firstn 8 (skipn 24 h)) in
                  Some (if le_val (firstn 2 (skipn 16 h)) =? 3 then u64 (e + b) else e)
      | None => None
      end
  | _ => None
  end.

(** ** The thread group *)

(** fscanf with the characters [lit] of the format: whether all match, and what is left;
    the first that does not match stays. *)
Fixpoint scan_lit (lit s : list Z) : bool * list Z :=
  match lit with
  | [] => (true, s)
  | x :: l => match s with
              | c :: r => if c =? x then scan_lit l r else (false, s)
              | [] => (false, [])
              end
  end.

(** get_threadgroup_id, kpatch_ptrace.c:491-515: the text of /proc/N/status, lines of up to
    255 characters.  [fuel]: the length of the text is enough.  Simplified: when no number
    follows "Tgid:" the whole line is skipped. *)
Fixpoint tgid_loop (fuel : nat) (s : list Z) : Z :=
  match fuel with
  | O => -1
  | S f =>
      match s with
      | [] => -1
      | _ =>
          let '(ok, r) := scan_lit (str "Tgid:") s in
          match (if ok then scan_d r else None) with
          | Some (v, _) => s32 v
          | None => match r with [] => -1 | _ => tgid_loop f (snd (fgets 255 r)) end
          end
      end
  end.
Definition get_threadgroup_id (status : option (list Z)) : Z :=
  match status with Some s => tgid_loop (length s) s | None => -1 end.

(** ** The handshake with the execve wrapper *)

(** What the tool does to the program: send the message, let thread [t] go on and wait for
    [w], detach from a thread, open the memory of a process. *)
Inductive kev := KSend | KWait (t w : Z) | KDetach (t : Z) | KOpen (p : Z).

(** A stop: the program counter and the words in memory; [None]: wait_for_stop failed. *)
Definition kstop : Type := option (Z * (Z -> option Z)).

(** BREAK_INSN as an unsigned, include/kpatch_ptrace.h:128-134: ebreak, or else the one
    byte 0xcc, of which four bytes are read: [junk] is what the three behind it are. *)
Definition break_word (a : arch) (junk : Z) : Z :=
  match a with RISCV => 0x100073 | _ => 0xcc + 256 * junk end.

(** Is the thread at the breakpoint, x86 85-96, aarch64 88-99: the byte before the program
    counter is 0xcc; riscv64 107-115, loongarch64 108-116: the word at the program counter
    is the break instruction.  [None]: an error, which a word of all ones is taken for. *)
Definition at_break (a : arch) (junk pc : Z) (peek : Z -> option Z) : option bool :=
  match a with
  | X86 | AARCH64 =>
      if u64 pc =? 2 ^ 64 - 1 then None
      else match peek (u64 (pc - 1)) with
           | None => None
           | Some w => if u64 w =? 2 ^ 64 - 1 then None else Some (w mod 256 =? 0xcc)
           end
  | RISCV | LOONG =>
      match peek pc with None => None | Some w => Some (w mod 2 ^ 32 =? break_word a junk) end
  end.

(** The loop that waits for the breakpoint: [Some true] reached, [Some false] failed,
    [None] still waiting; with what was done. *)
Fixpoint break_loop (a : arch) (junk t : Z) (stops : list kstop) : option bool * list kev :=
  match stops with
  | [] => (None, [KWait t t])
  | None :: _ => (Some false, [KWait t t])
  | Some (pc, peek) :: r =>
      match at_break a junk pc peek with
      | None => (Some false, [KWait t t])
      | Some true => (Some true, [KWait t t])
      | Some false => let '(x, l) := break_loop a junk t r in (x, KWait t t :: l)
      end
  end.

(** kpatch_arch_ptrace_kickstart_execve_wrapper, arch/x86/arch_ptrace.c:43-138 and its
    copies.  [ths]: the threads attached to, in the order of the list; [pid]: proc->pid,
    the thread that called execve; [send], [last], [open]: whether these calls succeed;
    [status]: /proc/N/status of a thread.  The result: 0 or -1 ([None]: still waiting),
    proc->pid and the threads after, what was done. *)
Definition kickstart (a : arch) (junk : Z) (ths : list Z) (pid : Z) (send : bool) (stops : list kstop)
    (status : Z -> option (list Z)) (last open : bool) : option Z * Z * list Z * list kev :=
  if negb (existsb (Z.eqb pid) ths) then (Some (-1), pid, ths, [])
  else if negb send then (Some (-1), pid, ths, [KSend])
  else
    let '(x, evs) := break_loop a junk pid stops in
    let evs := KSend :: evs in
    match x with
    | None => (None, pid, ths, evs)
    | Some false => (Some (-1), pid, ths, evs)
    | Some true =>
        let other := negb (match ths with t :: _ => t =? pid | [] => false end) in
        let tg := if other then get_threadgroup_id (status pid) else pid in
        if other && (tg <? 0) then (Some (-1), pid, ths, evs)
        else
          let evs := evs ++ [KWait pid (if tg =? 0 then pid else tg)] in
          if negb last then (Some (-1), tg, ths, evs)
          else
            let evs := evs ++ map KDetach (filter (fun t => negb (t =? tg)) ths) ++ [KOpen tg] in
            (Some (if open then 0 else -1), tg, filter (Z.eqb tg) ths, evs)
    end.
