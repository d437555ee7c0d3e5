(** Functions of the process called by the tool: resolvers of indirect functions
    (kpatch_arch_ptrace_resolve_ifunc, /repo/src/arch/*/arch_ptrace.c), makecontext
    (locate_start_context_symbol, /repo/src/arch/*/arch_coro.c) and arch_prctl
    (kpatch_arch_prctl_remote, /repo/src/arch/x86/arch_ptrace.c:228-273).  Definitions only. *)
From Coq Require Import String.
From Verif Require Import Base StorageModel TextModel RemoteModel PtraceModel CoroModel.
Open Scope list_scope.

(** * The processor, as far as the code the tool injects needs it (from the manuals).  Registers
    have the machine's numbers: x86 0 rax, 1 rcx, 2 rdx, 3 rbx, 4 rsp, 5 rbp, 6 rsi, 7 rdi, 8 ... 15;
    AArch64 0 ... 30 and 31 the stack pointer; RISC-V and LoongArch 0 ... 31. *)
Record cpu := { gr : Z -> Z; pc : Z }.
Definition set_gr (g : Z -> Z) (r v : Z) : Z -> Z := fun x => if x =? r then v else g x.
Inductive instr := ICall (r : Z) | ISys | IBreak.
Definition decode_word (a : carch) (w : Z) : option instr :=
  match a with
  | CX86 => None
  | CAarch64 =>
      if (w - w mod 1024 =? 0xd63f0000) && (w mod 32 =? 0) then Some (ICall (w / 32 mod 32))   (* blr *)
      else if w =? 0xd4000001 then Some ISys                                                    (* svc #0 *)
      else if (w - w mod 2 ^ 21 =? 0xd4200000) && (w mod 32 =? 0) then Some IBreak              (* brk *)
      else None
  | CRiscv =>
      if (w mod 2 ^ 15 =? 0xe7) && (w / 2 ^ 20 =? 0) then Some (ICall (w / 2 ^ 15 mod 32))      (* jalr ra, 0(r) *)
      else if w =? 0x73 then Some ISys else if w =? 0x100073 then Some IBreak else None         (* ecall, ebreak *)
  | CLoong =>
      if (w / 2 ^ 10 =? 0x130000) && (w mod 32 =? 1) then Some (ICall (w / 32 mod 32))          (* jirl ra, r, 0 *)
      else if w =? 0x2b0000 then Some ISys else if w =? 0x2a0000 then Some IBreak else None     (* syscall 0, break 0 *)
  end.
Definition decode (a : carch) (m : mem) (p : Z) : option (instr * Z) :=
  match a with
  | CX86 => match m p, m (p + 1) with
            | Some 0xcc, _ => Some (IBreak, 1)
            | Some 0x0f, Some 0x05 => Some (ISys, 2)
            | Some 0xff, Some b => if (0xd0 <=? b) && (b <=? 0xd7) then Some (ICall (b - 0xd0), 2) else None   (* call *r *)
            | _, _ => None
            end
  | _ => match mread m p 4 with Some bs => match decode_word a (le_val bs) with Some i => Some (i, 4) | None => None end | None => None end
  end.
Definition sp_reg (a : carch) : Z := match a with CX86 => 4 | CAarch64 => 31 | CRiscv => 2 | CLoong => 3 end.
Definition link_reg (a : carch) : Z := match a with CAarch64 => 30 | _ => 1 end.
(** What the called function does: [None] if it does not return *)
Definition callee : Type := Z -> (Z -> Z) -> mem -> option (mem * (Z -> Z)).
(** From a call instruction to the breakpoint behind it; on x86 the return address is pushed and popped. *)
Definition cpu_call (a : carch) (f : callee) (m : mem) (c : cpu) : option (mem * cpu) :=
  match decode a m (pc c) with
  | Some (ICall r, len) =>
      let back := pc c + len in
      let sp := gr c (sp_reg a) in
      let '(m1, g1) := match a with
                       | CX86 => (mset m (sp - 8) (le_bytes 8 back), set_gr (gr c) (sp_reg a) (sp - 8))
                       | _ => (m, set_gr (gr c) (link_reg a) back)
                       end in
      match f (gr c r) g1 m1 with
      | Some (m2, g2) =>
          match decode a m2 back with
          | Some (IBreak, _) => Some (m2, {| gr := match a with CX86 => set_gr g2 (sp_reg a) (g2 (sp_reg a) + 8) | _ => g2 end; pc := back |})
          | _ => None
          end
      | None => None
      end
  | _ => None
  end.

(** * Running code, kpatch_arch_execute_remote_func (PtraceModel) with wait_for_stop *)
(** copy_regs: x86 374-394, AArch64 351-378, RISC-V 323-335, LoongArch 328-340 *)
Definition copied (a : carch) : list Z :=
  match a with
  | CX86 => [15; 14; 13; 12; 5; 3; 11; 10; 9; 8; 0; 1; 2; 6; 7]
  | CAarch64 => [0; 1; 2; 3; 4; 5; 8; 29; 9; 10; 11; 12; 13; 14; 15; 16; 17; 18; 19; 20]
  | CRiscv => [10; 11; 12; 13; 14; 15; 16; 17]
  | CLoong => [4; 5; 6; 7; 8; 9; 10; 11]
  end.
Definition enter (a : carch) (base : Z) (pregs r : cpu) : cpu :=
  {| gr := fun x => if existsb (Z.eqb x) (copied a) then gr pregs x else gr r x; pc := base |}.
(** [evs]: what wait_for_stop meets; [ran]: the thread got to the breakpoint before it stopped for
    the last time.  A function that does not return is not modelled further: nothing stops. *)
Definition call_func (a : carch) (evs : list (bool * wstatus)) (ran : bool) (f : callee) (m : mem) (c : cpu) : bool * mem * cpu :=
  let ok := match fst (wait_for_stop evs 0) with Some 0 => true | _ => false end in
  if ran then match cpu_call a f m c with Some (m', c') => (ok, m', c') | None => (false, m, c) end else (ok, m, c).

(** * kpatch_arch_ptrace_resolve_ifunc: x86 275-294, AArch64 229-248, RISC-V 240-258, LoongArch
    243-262.  [junk]: what the registers of the tool's variable hold before; only RISC-V does not
    clear them. *)
Definition ifunc_code (a : carch) : list Z :=
  match a with
  | CX86 => [0xff; 0xd0; 0xcc]
  | CAarch64 => [0x00; 0x01; 0x3f; 0xd6; 0xa0; 0x00; 0x20; 0xd4]
  | CRiscv => [0xe7; 0x00; 0x05; 0x00; 0x73; 0x00; 0x10; 0x00]
  | CLoong => [0x81; 0x00; 0x00; 0x4c; 0x00; 0x00; 0x2a; 0x00]
  end.
Definition addr_reg (a : carch) : Z := match a with CX86 => 0 | CAarch64 => 8 | CRiscv => 10 | CLoong => 4 end.
Definition res_reg (a : carch) : Z := match a with CX86 => 0 | CAarch64 => 0 | CRiscv => 10 | CLoong => 4 end.
Definition ifunc_regs (a : carch) (junk : Z -> Z) (addr : Z) : cpu :=
  {| gr := set_gr (match a with CRiscv => junk | _ => fun _ => 0 end) (addr_reg a) addr; pc := 0 |}.
(** The result, the thread's registers and the address *)
Definition resolve_ifunc (a : carch) (evs : list (bool * wstatus)) (ran : bool) (f : callee) (junk : Z -> Z) (libc addr : Z) (r0 : cpu) : M (Z * cpu * Z) :=
  x <- execute_remote cpu (enter a libc) (call_func a evs ran f) libc (ifunc_code a) (ifunc_regs a junk addr) r0 ;;
  let '(rv, r, p) := x in ret (rv, r, if rv =? 0 then gr p (res_reg a) else addr).

(** * kpatch_arch_prctl_remote, arch/x86/arch_ptrace.c:228-273, with ARCH_GET_FS (158 is arch_prctl):
    the answer is stored at the stack pointer, read, and what was there is put back.  [fs]: the
    thread's base.  The kernel answers -EFAULT if it cannot store.  The result and [*addr]. *)
Definition prctl_kernel (rsp fs : Z) (m : mem) : mem * Z :=
  if Nat.eqb (maplen m rsp 8) 8 then (mset m rsp (le_bytes 8 fs), 0) else (m, 2 ^ 64 - 14).
Definition attempt {A} (x : M A) : M (option A) := fun s => match x s with (Ret v, s') => (Ret (Some v), s') | (Err, s') => (Ret None, s') | (Die, s') => (Die, s') | (Hang, s') => (Hang, s') | (UB, s') => (UB, s') end.
Definition prctl_remote (evs : list (bool * wstatus)) (ran : bool) (libc rsp rax0 fs : Z) : M (Z * option Z) :=
  ok <- getset ;;                                                              (* 236 *)
  if negb ok then ret (-1, None)
  else
    old <- attempt (mem_read rsp 8) ;;                                         (* 241 *)
    match old with
    | None => ret (-1, None)
    | Some old =>
        x <- syscall_remote evs ran (prctl_kernel rsp fs) libc 158 rax0 ;;     (* 249 *)
        let '(rv, _, p) := x in
        y <- (if rv <? 0 then ret (rv, 2 ^ 64 - 4095)
              else if kernel_error_bound <=? p then ret (-1, p)
              else r <- attempt (mem_read rsp 8) ;;                            (* 257 *)
                   match r with Some bs => ret (0, le_val bs) | None => ret (-1, p) end) ;;
        attempt (mem_write rsp old) ;;;                                        (* 265-269 *)
        ret (fst y, Some (snd y))
    end.

(** * locate_start_context_symbol, arch/x86/arch_coro.c:40-84.  The injected code is rendered by what
    it does (makecontext_entry, CoroModel): [entry] is the call of makecontext, [None] if it does not
    return; rbx, rbp, rdi, rsi, rdx and rax are set.  [mk]: makecontext's address, [None]: not found. *)
Definition makecontext_code : list Z :=
  [0x48; 0x89; 0xe5; 0x48; 0x83; 0xe5; 0xf0; 0x48; 0x81; 0xed; 0x00; 0x04; 0x00; 0x00; 0x48; 0x8d; 0x5d; 0x80; 0x48; 0x89; 0x5d; 0x10; 0x48; 0xc7;
   0x45; 0x20; 0x80; 0x00; 0x00; 0x00; 0x48; 0x89; 0xef; 0x48; 0xc7; 0xc6; 0x00; 0x01; 0x00; 0x00; 0x48; 0x31; 0xd2; 0xff; 0xd0; 0xcc].
Definition context_call (f : callee) (base : Z) (m : mem) (c : cpu) : option (mem * cpu) :=
  let rsp := gr c 4 in
  let rbp := rsp - rsp mod 16 - 1024 in
  let g := set_gr (set_gr (set_gr (set_gr (set_gr (set_gr (gr c) 5 rbp) 3 (rbp - 128)) 7 rbp) 6 256) 2 0) 4 (rsp - 8) in
  match f (gr c 0) g (makecontext_entry m rsp (base + 45)) with
  | Some (m2, g2) => Some (m2, {| gr := set_gr g2 4 (g2 4 + 8); pc := base + 46 |})
  | None => None
  end.
Definition context_func (evs : list (bool * wstatus)) (ran : bool) (f : callee) (base : Z) (m : mem) (c : cpu) : bool * mem * cpu :=
  let ok := match fst (wait_for_stop evs 0) with Some 0 => true | _ => false end in
  if ran then match context_call f base m c with Some (m', c') => (ok, m', c') | None => (false, m, c) end else (ok, m, c).
Definition locate_start_context (evs : list (bool * wstatus)) (ran : bool) (f : callee) (junk : Z -> Z) (libc : Z) (mk : option Z) (r0 : cpu) : M Z :=
  match mk with
  | None => fail
  | Some mk =>
      x <- execute_remote cpu (enter CX86 libc) (context_func evs ran f libc) libc makecontext_code {| gr := set_gr junk 0 mk; pc := 0 |} r0 ;;
      let '(rv, _, p) := x in
      if rv <? 0 then fail else read_word 8 (gr p 5 - 24)
  end.
(** arch/aarch64/arch_coro.c:14-28, 30-74: the address is put into x8 and a system call made.  [kernel]
    gives x0 for a number.  x9 is loaded from 128 bytes below x29 and stored at x29 + 16. *)
Definition context_call_arm (kernel : Z -> Z) (base : Z) (m : mem) (c : cpu) : option (mem * cpu) :=
  let sp := gr c 31 in
  let fp := sp - sp mod 16 - 1024 in
  match mread m (fp - 128) 8 with
  | None => None
  | Some bs =>
      let g := set_gr (set_gr (set_gr (set_gr (set_gr (gr c) 29 fp) 9 (le_val bs)) 0 fp) 1 256) 2 0 in
      Some (mset m (fp + 16) bs, {| gr := set_gr g 0 (kernel (gr c 8)); pc := base + 36 |})
  end.

(** arch/riscv64/arch_coro.c:17-33, 37-77: the address is in a7, the link register is set; the word is
    looked for below s0.  [f]: makecontext; [None]: the stores fault or it does not return.
    Simplification: the assembler chooses the length [len] of the code, the trap is its last four bytes. *)
Definition context_call_riscv (f : callee) (len base : Z) (m : mem) (c : cpu) : option (mem * cpu) :=
  let sp := gr c 2 in
  let fp := sp - sp mod 16 - 1024 in
  if Nat.eqb (maplen m (fp + 16) 8) 8 && Nat.eqb (maplen m (fp + 32) 8) 8 then
    let g := set_gr (set_gr (set_gr (set_gr (set_gr (gr c) 8 fp) 10 fp) 11 256) 12 0) 1 (base + len - 4) in
    match f (gr c 17) g (mset (mset m (fp + 16) (le_bytes 8 (fp - 128))) (fp + 32) (le_bytes 8 128)) with
    | Some (m2, g2) => Some (m2, {| gr := g2; pc := base + len - 4 |})
    | None => None
    end
  else None.

(** arch/loongarch64/arch_coro.c:18-34, 38-77: bstrpick.d takes the bits 4 ... 63 of the stack pointer
    down to 0 ... 59; the address of makecontext is put into a7 ($r11) and the code jumps, without a
    link, to t0 ($r12), which copy_regs does not set.  The word is looked for below s0 ($r23), the code
    uses fp ($r22).  [None]: the stores fault; else where the code jumps, with memory and registers. *)
Definition context_call_loong (m : mem) (c : cpu) : option (Z * mem * (Z -> Z)) :=
  let fp := gr c 3 / 16 - 1024 in
  if Nat.eqb (maplen m (u64 (fp + 16)) 8) 8 && Nat.eqb (maplen m (u64 (fp + 32)) 8) 8 then
    Some (gr c 12, mset (mset m (fp + 16) (le_bytes 8 (fp - 128))) (fp + 32) (le_bytes 8 128), set_gr (set_gr (set_gr (set_gr (gr c) 22 fp) 4 fp) 5 256) 6 0)
  else None.

(** * kpatch_process_get_obj_by_regex, kpatch_process.c:1186-1212.  The basic regular expressions of
    regcomp(3), those without brackets, groups, bounds and classes: [None] for the others. *)
Inductive atom := Char (c : Z) | Any.
Definition item : Type := atom * bool.                                         (* followed by a star *)
Record regex := { re_start : bool; re_items : list item; re_end : bool }.
Definition special (c : Z) : bool := existsb (Z.eqb c) (str "[*\").
Fixpoint items (fuel : nat) (s : text) : option (list item * bool) :=
  match fuel with
  | O => None
  | S n =>
      let star x r :=
        let starred := match r with d :: _ => d =? 42 | [] => false end in
        match items n (if starred then tl r else r) with Some (l, e) => Some ((x, starred) :: l, e) | None => None end in
      match s with
      | [] => Some ([], false)
      | c :: r =>
          if c =? 92 then match r with d :: r' => if existsb (Z.eqb d) (str "[]*\.^$") then star (Char d) r' else None | [] => None end
          else if c =? 46 then star Any r
          else if (c =? 36) && match r with [] => true | _ => false end then Some ([], true)
          else if special c then None else star (Char c) r
      end
  end.
Definition regcomp (s : text) : option regex :=
  let b := match s with c :: _ => c =? 94 | [] => false end in
  let s' := if b then tl s else s in
  match items (S (List.length s')) s' with Some (l, e) => Some {| re_start := b; re_items := l; re_end := e |} | None => None end.
Definition atom_ok (x : atom) (c : Z) : bool := match x with Char d => d =? c | Any => true end.
(** Whether the items match a beginning of [s], the whole if [e] *)
Fixpoint match_here (l : list item) (e : bool) (s : text) : bool :=
  match l with
  | [] => if e then match s with [] => true | _ => false end else true
  | (x, false) :: l' => match s with c :: r => atom_ok x c && match_here l' e r | [] => false end
  | (x, true) :: l' =>
      (fix many (s : text) : bool := match_here l' e s || match s with c :: r => atom_ok x c && many r | [] => false end) s
  end.
Fixpoint match_from (l : list item) (e : bool) (s : text) : bool :=
  match_here l e s || match s with _ :: r => match_from l e r | [] => false end.
Definition regexec (r : regex) (s : text) : bool :=
  if re_start r then match_here (re_items r) (re_end r) s else match_from (re_items r) (re_end r) s.
(** The first object whose name matches *)
Definition obj_by_regex {A} (name : A -> text) (pat : text) (objs : list A) : option A :=
  match regcomp pat with Some r => find (fun o => regexec r (name o)) objs | None => None end.
(** The patterns: kpatch_coro.c:138-139, arch/x86/arch_coro.c:49 and arch/aarch64/arch_coro.c:41,
    arch/riscv64/arch_coro.c:46 and arch/loongarch64/arch_coro.c:47 *)
Definition heap_pat := str "^\[heap\]$".
Definition tcmalloc_pat := str "^libtcmalloc.*\.so\.4.*".
Definition libc_pat (a : carch) : text := match a with CX86 | CAarch64 => str "^libc-.*\.so" | CRiscv | CLoong => str "^libc\.so" end.
