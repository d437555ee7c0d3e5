(** Saved contexts of coroutines; independent of CoroModel's way of reading them. *)
From Verif Require Import Base.

(** PTR_MANGLE of glibc on x86-64 (sysdeps/unix/sysv/linux/x86_64/pointer_guard.h): exclusive
    or with the guard, rotation to the left by 17 *)
Definition rol17 (x : Z) : Z := Z.lor (u64 (Z.shiftl x 17)) (Z.shiftr x 47).
Definition mangle (p k : Z) : Z := rol17 (Z.lxor p k).

(** A saved context on x86-64 and the eight words setjmp writes for it *)
Record context := { cx_rbx : Z; cx_rbp : Z; cx_r12 : Z; cx_r13 : Z; cx_r14 : Z; cx_r15 : Z; cx_rsp : Z; cx_rip : Z }.
Definition word_ok (x : Z) : Prop := 0 <= x < 2 ^ 64.
Definition context_ok (c : context) : Prop :=
  word_ok (cx_rbx c) /\ word_ok (cx_rbp c) /\ word_ok (cx_r12 c) /\ word_ok (cx_r13 c) /\ word_ok (cx_r14 c)
  /\ word_ok (cx_r15 c) /\ word_ok (cx_rsp c) /\ word_ok (cx_rip c).
Definition setjmp (k : Z) (c : context) : list Z :=
  [cx_rbx c; mangle (cx_rbp c) k; cx_r12 c; cx_r13 c; cx_r14 c; cx_r15 c; mangle (cx_rsp c) k; mangle (cx_rip c) k].
(** The buffer of the context [c] is in memory at [a]: its words, and the rest of its 200
    bytes is there. *)
Definition saved (m : mem) (k a : Z) (c : context) : Prop :=
  exists rest, mread m (u64 a) 200 = Some (concat (map (le_bytes 8) (setjmp k c)) ++ rest).
(** A word in memory *)
Definition stored (m : mem) (a v : Z) : Prop := word_ok v /\ mread m (u64 a) 8 = Some (le_bytes 8 v).

(** A list of coroutines in memory: [lo] is where a coroutine has the address of the next,
    [eo] where it has its buffer. *)
Inductive chain (m : mem) (k lo eo : Z) : Z -> list context -> Prop :=
| ch_end : chain m k lo eo 0 []
| ch_next : forall a next c cs, a <> 0 -> context_ok c -> saved m k (a + eo) c -> stored m (a + lo) next ->
    chain m k lo eo next cs -> chain m k lo eo a (c :: cs).

(** The end of a page of the heap: it is the end of a coroutine's stack, as makecontext
    leaves it, or it is not.  [start] is the address makecontext leaves there. *)
Definition stack_end (m : mem) (k start ptr : Z) (c : context) : Prop :=
  exists v, stored m (ptr - 24) start /\ stored m (ptr - 32) (u64 (ptr - 16)) /\ stored m (ptr - 64) v /\ stored m (ptr - 56) v
    /\ saved m k (v + 56) c /\ context_ok c.
Definition no_stack_end (m : mem) (start ptr : Z) : Prop :=
  exists a b c d, stored m (ptr - 24) a /\ stored m (ptr - 32) b /\ stored m (ptr - 64) c /\ stored m (ptr - 56) d
    /\ (a <> start \/ b <> u64 (ptr - 16) \/ c <> d).
(** The pages from [cur] on, and the contexts found in them *)
Inductive heap (m : mem) (k start pg : Z) : Z -> nat -> list context -> Prop :=
| hp_end : forall cur, heap m k start pg cur 0 []
| hp_stack : forall cur n c cs, stack_end m k start (cur + pg) c -> heap m k start pg (cur + pg) n cs ->
    heap m k start pg cur (S n) (c :: cs)
| hp_other : forall cur n cs, no_stack_end m start (cur + pg) -> heap m k start pg (cur + pg) n cs ->
    heap m k start pg cur (S n) cs.

(** What the registers of a stopped coroutine are *)
Definition register (c : context) (reg v : Z) : Prop :=
  (reg = 3 /\ v = cx_rbx c) \/ (reg = 6 /\ v = cx_rbp c) \/ (reg = 12 /\ v = cx_r12 c) \/ (reg = 13 /\ v = cx_r13 c)
  \/ (reg = 14 /\ v = cx_r14 c) \/ (reg = 15 /\ v = cx_r15 c) \/ (reg = 7 /\ v = cx_rsp c) \/ (reg = 16 /\ v = cx_rip c).

(** AArch64: setjmp of glibc stores x19 ... x30 in the words 0 to 11 and the stack pointer
    in word 13 (sysdeps/aarch64/jmpbuf-offsets.h). *)
Definition aarch64_words (x : Z -> Z) (w : list Z) : Prop :=
  length w = 22%nat /\ (forall i, 0 <= i <= 9 -> nth_error w (Z.to_nat i) = Some (x (19 + i))).
(** RISC-V: the program counter, s0, s1, ..., s11, the stack pointer, as they are
    (sysdeps/riscv/setjmp.S); s0 is x8, s1 is x9, s2 ... s11 are x18 ... x27 *)
Definition riscv_words (x : Z -> Z) (w : list Z) : Prop :=
  w = x 32 :: x 8 :: x 9 :: map (fun i => x (18 + Z.of_nat i)) (seq 0 10) ++ [x 2].
