(** Coroutines of a process (/repo/src/kpatch_coro.c, include/kpatch_coro.h,
    arch/*/arch_coro.c).  Definitions only. *)
From Verif Require Import Base RemoteModel.

(** PTR_DEMANGLE, include/kpatch_coro.h:33, on unsigned long *)
Definition ptr_demangle (p k : Z) : Z := Z.lxor (Z.lor (Z.shiftr p 17) (u64 (Z.shiftl p 47))) k.

(** The words of a sigjmp_buf: on x86-64 it is 200 bytes (struct __jmp_buf_tag of glibc). *)
Fixpoint words (bs : list Z) (n : nat) : list Z :=
  match n with O => [] | S n' => le_val (firstn 8 bs) :: words (skipn 8 bs) n' end.
Definition env_size : nat := 200.
Definition read_word (n : nat) (a : Z) : M Z := bs <- mem_read (u64 a) n ;; ret (le_val bs).
Definition read_env (a : Z) : M (list Z) := bs <- mem_read (u64 a) env_size ;; ret (words bs 25).
(** regs[JB_RBP], regs[JB_RSP], regs[JB_RIP] demangled, 205-208, 309-312; the same code on
    every architecture *)
Definition demangle_at (i : nat) (k : Z) (regs : list Z) : list Z :=
  firstn i regs ++ match skipn i regs with x :: r => ptr_demangle x k :: r | [] => [] end.
Definition demangle_env (k : Z) (regs : list Z) : list Z := demangle_at 7 k (demangle_at 6 k (demangle_at 1 k regs)).

(** get_ptr_guard.  x86 (arch/x86/arch_coro.c:85-106): the word at 0x30 of the thread
    area, [fs] is the answer of the remote arch_prctl; AArch64
    (arch/aarch64/arch_coro.c:77-99): the word at address 0x30; RISC-V and LoongArch
    (arch/riscv64/arch_coro.c:78-85): nothing is stored, [junk] is what the variable
    holds. *)
Inductive carch := CX86 | CAarch64 | CRiscv | CLoong.
Definition get_ptr_guard (a : carch) (fs : option Z) (junk : Z) : M Z :=
  match a with
  | CX86 => match fs with None => fail | Some t => read_word 8 (t + 48) end
  | CAarch64 => read_word 8 48
  | CRiscv | CLoong => ret junk
  end.

(** The loop over the list, 286-323: the coroutines in the order of the list (list_add
    adds at the tail, include/list.h:70-73).  malloc failing is not modelled. *)
Fixpoint walk (fuel : nat) (k lo eo cur : Z) (acc : list (list Z)) : M (list (list Z)) :=
  if cur =? 0 then ret acc
  else match fuel with
       | O => hang
       | S f =>
           regs <- read_env (cur + eo) ;;
           next <- read_word 8 (cur + lo) ;;
           walk f k lo eo next (acc ++ [demangle_env k regs])
       end.

(** qemu_cloudlinux_find_coroutines, 219-324, after the test of the process' name.
    [exec] is false when the main object is not found; [syms] are the addresses of the
    three variables, their symbols resolved and the load offset added.  The answer [None]
    is CORO_SEARCH_NEXT.  The two offsets are ints. *)
Definition find_listed (fuel : nat) (arch : carch) (fs : option Z) (junk : Z) (exec : bool)
    (syms : option Z * option Z * option Z) : M (option (list (list Z))) :=
  if negb exec then fail
  else match syms with
       | (None, _, _) => ret None
       | (Some a1, s2, s3) =>
           head <- read_word 8 a1 ;;
           match s2 with
           | None => fail
           | Some a2 =>
               lo <- read_word 4 a2 ;;
               match s3 with
               | None => fail
               | Some a3 =>
                   eo <- read_word 4 a3 ;;
                   k <- get_ptr_guard arch fs junk ;;
                   l <- walk fuel k (s32 lo) (s32 eo) head [] ;;
                   ret (Some l)
               end
           end
       end.

(** PEEK_ULONG, include/kpatch_ptrace.h:48-57 *)
Definition peek_ulong (pg : Z) (it : iter) (a : Z) : M (iter * Z) :=
  r <- iter_peek pg it 8 (u64 a) ;;
  match r with (it', Some bs) => ret (it', le_val bs) | (_, None) => fail end.

(** The loop over the heap, 173-209, [n] rounds; the offsets of
    include/kpatch_coro.h:43-49.  The last test of [ret] is of the last read. *)
Fixpoint scan (n : nat) (pg k start : Z) (it : iter) (cur : Z) (acc : list (list Z)) : M (list (list Z)) :=
  match n with
  | O => ret acc
  | S n' =>
      let ptr := cur + pg in
      r <- peek_ulong pg it (ptr - 24) ;; let (it, v) := r : iter * Z in
      if negb (v =? start) then scan n' pg k start it ptr acc
      else
        r <- peek_ulong pg it (ptr - 32) ;; let (it, v) := r : iter * Z in
        if negb (v =? u64 (ptr - 16)) then scan n' pg k start it ptr acc
        else
          r <- peek_ulong pg it (ptr - 64) ;; let (it, v) := r : iter * Z in
          r <- peek_ulong pg it (ptr - 56) ;; let (it, v2) := r : iter * Z in
          if negb (v =? v2) then scan n' pg k start it ptr acc
          else
            regs <- read_env (v + 56) ;;
            scan n' pg k start it ptr (acc ++ [demangle_env k regs])
  end.

(** qemu_centos7_find_coroutines, 125-214, after the test of the process' name.  [heap] is
    the first area of the object called [heap]; [start] is the answer of
    locate_start_context_symbol (arch/x86/arch_coro.c:40-83), [None] its failure. *)
Definition find_scanned (arch : carch) (pg : Z) (fs : option Z) (junk : Z) (test tcmalloc : bool)
    (heap : option (Z * Z)) (start : option Z) : M (option (list (list Z))) :=
  match heap with
  | None => fail
  | Some (lo, hi) =>
      if negb (tcmalloc || test) then fail
      else match start with
           | None => ret None
           | Some st =>
               k <- get_ptr_guard arch fs junk ;;
               l <- scan (Z.to_nat ((hi - lo + pg - 1) / pg)) pg k st (iter_init pg) lo [] ;;
               ret (Some l)
           end
  end.

(** kpatch_coroutines_find, 449-467, with the three flavours, 342-352, and
    fail_if_uses_coroutines, 326-340.  [tl]: the process is called fail_coro_listed, [ts]:
    it is called fail_coro; [qemu]: is_centos7_qemu. *)
Definition coroutines_find (just_started tl ts qemu : bool) (listed scanned : M (option (list (list Z)))) : M (list (list Z)) :=
  if just_started then ret []
  else
    a <- (if tl || qemu then listed else ret None) ;;
    match a with
    | Some l => ret l
    | None =>
        b <- (if ts || qemu then scanned else ret None) ;;
        match b with
        | Some l => ret l
        | None => if tl || ts || qemu then fail else ret []
        end
    end.

(** makecontext_call, arch/x86/arch_coro.c:18-36, up to the first instruction of
    makecontext: the memory after the two stores and the push of the return address
    [ra]. *)
Definition makecontext_entry (m : mem) (rsp ra : Z) : mem :=
  let rbp := rsp - rsp mod 16 - 1024 in
  mset (mset (mset m (rbp + 16) (le_bytes 8 (rbp - 128))) (rbp + 32) (le_bytes 8 128)) (rsp - 8) (le_bytes 8 ra).

(** _UCORO_access_reg, reading: where a register is taken from in the buffer; [None] is
    libunwind's own answer, the register of the thread.  x86 (arch/x86/arch_coro.c:108-133) rbx 3, rbp 6, rsp 7, r8 ... r15, and 16
    for the instruction pointer (libunwind's numbers); AArch64
    (arch/aarch64/arch_coro.c:101-126) x0 ... x30, 31 the stack pointer, 32 the program
    counter; RISC-V (arch/riscv64/arch_coro.c:87-112) x0 ... x31, 32 the program counter. *)
Definition slot (a : carch) (reg : Z) : option nat :=
  match a with
  | CX86 => if reg =? 3 then Some 0%nat else if reg =? 6 then Some 1%nat
            else if (12 <=? reg) && (reg <=? 15) then Some (Z.to_nat (reg - 12 + 2))
            else if reg =? 7 then Some 6%nat else if reg =? 16 then Some 7%nat else None
  | CAarch64 => if reg =? 9 then Some 0%nat else if reg =? 29 then Some 1%nat
                else if (12 <=? reg) && (reg <=? 15) then Some (Z.to_nat (reg - 12 + 2))
                else if reg =? 31 then Some 6%nat else if reg =? 32 then Some 7%nat else None
  | CRiscv => if reg =? 32 then Some 0%nat else if reg =? 8 then Some 1%nat else if reg =? 9 then Some 2%nat
              else if (18 <=? reg) && (reg <=? 27) then Some (Z.to_nat (3 + reg - 18))
              else if reg =? 2 then Some 13%nat else None
  | CLoong => if reg =? 32 then Some 0%nat else if reg =? 23 then Some 1%nat else if reg =? 24 then Some 2%nat
              else if (25 <=? reg) && (reg <=? 31) then Some (Z.to_nat (3 + reg - 25))
              else if reg =? 3 then Some 13%nat else None
  end.
Definition access_reg (a : carch) (env : list Z) (reg : Z) : option Z :=
  match slot a reg with Some i => nth_error env i | None => None end.

