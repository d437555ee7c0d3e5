(** The patient as the tool sees it: memory, page protections, and the outcome of
    every remote operation, chosen by an oracle. *)
From Verif Require Import Base.

(** What the environment answers to one remote operation.
    [AOk]: the operation does what the kernel documents.
    [AShort k]: it reports failure; a write has transferred [k] bytes before
    failing (fewer if unmapped memory is hit first), a system call has taken
    effect when [k > 0].
    [ADie k]: as [AShort k], and the tool itself dies at this point. *)
Inductive answer := AOk | AShort (k : nat) | ADie (k : nat).

(** How a piece of the tool ends.  [Err] is a negative return code, [Die] the
    death of the tool, [Hang] an unbounded loop that used up its fuel, [UB] an
    access outside a local buffer. *)
Inductive outcome (A : Type) := Ret (a : A) | Err | Die | Hang | UB.
Arguments Ret {A} a.
Arguments Err {A}.
Arguments Die {A}.
Arguments Hang {A}.
Arguments UB {A}.

(** [sm] memory of the patient; [sx a]: address [a] lies in a mapping with
    protection exactly r-x; [so] remaining oracle (when it runs out, every
    answer is [AOk]). *)
Record st := { sm : mem; sx : Z -> bool; so : list answer }.

Definition M (A : Type) : Type := st -> outcome A * st.
Definition ret {A} (a : A) : M A := fun s => (Ret a, s).
Definition fail {A} : M A := fun s => (Err, s).
Definition ub {A} : M A := fun s => (UB, s).
Definition hang {A} : M A := fun s => (Hang, s).
Definition bind {A B} (x : M A) (f : A -> M B) : M B :=
  fun s => match x s with
           | (Ret a, s') => f a s'
           | (Err, s') => (Err, s')
           | (Die, s') => (Die, s')
           | (Hang, s') => (Hang, s')
           | (UB, s') => (UB, s')
           end.
Notation "x <- a ;; b" := (bind a (fun x => b)) (at level 61, a at next level, right associativity).
Notation "a ;;; b" := (bind a (fun _ => b)) (at level 61, right associativity).

Definition pop (s : st) : answer * st :=
  match so s with
  | [] => (AOk, s)
  | a :: r => (a, {| sm := sm s; sx := sx s; so := r |})
  end.
Definition with_sm (s : st) (m : mem) : st := {| sm := m; sx := sx s; so := so s |}.
Definition with_map (s : st) (m : mem) (x : Z -> bool) : st := {| sm := m; sx := x; so := so s |}.

(** Something that can only succeed, fail without effect, or see the tool die:
    malloc, and the whole of patch_ensure_safety (kpatch_patch.c:266-306), whose
    inside is modelled in SafetyModel.v.  Simplification: the patient's own
    threads do not change its memory while the check runs them forward. *)
Definition choice : M unit := fun s =>
  match pop s with
  | (AOk, s') => (Ret tt, s')
  | (AShort _, s') => (Err, s')
  | (ADie _, s') => (Die, s')
  end.

(** kpatch_process_mem_read, kpatch_ptrace.c:46-57 *)
Definition mem_read (a : Z) (n : nat) : M (list Z) := fun s =>
  match pop s with
  | (AOk, s') => match mread (sm s') a n with
                 | Some bs => (Ret bs, s')
                 | None => (Err, s')
                 end
  | (AShort _, s') => (Err, s')
  | (ADie _, s') => (Die, s')
  end.

(** kpatch_process_mem_write, kpatch_ptrace.c:94-111, the pwrite path (the
    ptrace fallback for kernels without writable /proc/pid/mem is in
    PtraceModel.v). *)
Definition mem_write (a : Z) (bs : list Z) : M unit := fun s =>
  match pop s with
  | (AOk, s') => let '(k, m') := pwrite (sm s') a bs in
                 (if Nat.eqb k (length bs) then Ret tt else Err, with_sm s' m')
  | (AShort k, s') => (Err, with_sm s' (snd (pwrite (sm s') a (firstn k bs))))
  | (ADie k, s') => (Die, with_sm s' (snd (pwrite (sm s') a (firstn k bs))))
  end.

(** kpatch_process_memcpy, kpatch_ptrace.c:600-633 *)
Definition mem_copy (dst src : Z) (n : nat) : M unit :=
  choice ;;;
  bs <- mem_read src n ;;
  mem_write dst bs.

(** pread(2) as used by the iterator: [None] is -1; a short read ends at the
    first unmapped byte. *)
Definition pread (a : Z) (n : nat) : M (option (list Z)) := fun s =>
  match pop s with
  | (AOk, s') =>
      let k := maplen (sm s') a n in
      if (Nat.eqb k 0) && negb (Nat.eqb n 0) then (Ret None, s')
      else match mread (sm s') a k with
           | Some bs => (Ret (Some bs), s')
           | None => (Ret None, s')
           end
  | (AShort _, s') => (Ret None, s')
  | (ADie _, s') => (Die, s')
  end.

(** User addresses end at 2^47 (x86-64) or higher; the model uses one bound. *)
Definition task_size : Z := 2 ^ 47.

(** Kernel rules for fixed mappings: page-aligned address, non-zero length, range
    inside the user address space; the length is rounded up to pages. *)
Definition range_ok (pg a n : Z) : bool :=
  (a mod pg =? 0) && (0 <? n) && (0 <=? a) && (a + round_up n pg <=? task_size).

(** kpatch_mmap_remote, kpatch_ptrace.c:517-540, with PROT_READ|PROT_WRITE and
    MAP_FIXED|MAP_PRIVATE|MAP_ANONYMOUS as called from
    kpatch_process.c:1100-1103.  Returns the address. *)
Definition mmap_remote (pg a n : Z) : M Z := fun s =>
  let '(ans, s') := pop s in
  let done := with_map s' (mmap_fixed (sm s') a (round_up n pg))
                (fun x => if (a <=? x) && (x <? a + round_up n pg) then false else sx s' x) in
  if negb (range_ok pg a n) then (match ans with ADie _ => Die | _ => Err end, s')
  else match ans with
       | AOk => (Ret a, done)
       | AShort O => (Err, s')
       | AShort (S _) => (Err, done)
       | ADie O => (Die, s')
       | ADie (S _) => (Die, done)
       end.

(** kpatch_munmap_remote, kpatch_ptrace.c:564-581 *)
Definition munmap_remote (pg a n : Z) : M unit := fun s =>
  let '(ans, s') := pop s in
  let done := with_map s' (munmap (sm s') a (round_up n pg))
                (fun x => if (a <=? x) && (x <? a + round_up n pg) then false else sx s' x) in
  if negb (range_ok pg a n) then (match ans with ADie _ => Die | _ => Err end, s')
  else match ans with
       | AOk => (Ret tt, done)
       | AShort O => (Err, s')
       | AShort (S _) => (Err, done)
       | ADie O => (Die, s')
       | ADie (S _) => (Die, done)
       end.

(** kpatch_mprotect_remote, kpatch_ptrace.c:542-562, with PROT_READ|PROT_EXEC.
    Fails when a page of the range is not mapped. *)
Definition mprotect_rx_remote (pg a n : Z) : M unit := fun s =>
  let '(ans, s') := pop s in
  let done := with_map s' (sm s')
                (fun x => if (a <=? x) && (x <? a + round_up n pg) then true else sx s' x) in
  if negb (range_ok pg a n
           && Nat.eqb (maplen (sm s') a (Z.to_nat (round_up n pg))) (Z.to_nat (round_up n pg)))
  then (match ans with ADie _ => Die | _ => Err end, s')
  else match ans with
       | AOk => (Ret tt, done)
       | AShort O => (Err, s')
       | AShort (S _) => (Err, done)
       | ADie O => (Die, s')
       | ADie (S _) => (Die, done)
       end.

(** struct process_mem_iter (include/kpatch_ptrace.h:26-32): the last page read. *)
Record iter := { it_base : Z; it_len : Z; it_buf : list Z }.

(** kpatch_process_mem_iter_init, kpatch_ptrace.c:113-130: zeroed buffer of one
    page. *)
Definition iter_init (pg : Z) : iter :=
  {| it_base := 0; it_len := 0; it_buf := repeat 0 (Z.to_nat pg) |}.

(** kpatch_process_mem_iter_peek, kpatch_ptrace.c:137-162.  [None] is the return
    value -1.  [base] is updated before pread is tried.  [ret] is a size_t, so
    pread's -1 becomes 2^64-1, passes the test [ret < size], is stored as the
    buffer length, and the old contents of the buffer are returned; after a short
    read [buflen] keeps the length of the previous read. *)
Definition iter_peek (pg : Z) (it : iter) (size a : Z) : M (iter * option (list Z)) :=
  if pg <? size then
    fun s => match mem_read a (Z.to_nat size) s with
             | (Err, s') => (Ret (it, None), s')
             | (Ret bs, s') => (Ret (it, Some bs), s')
             | (Die, s') => (Die, s')
             | (Hang, s') => (Hang, s')
             | (UB, s') => (UB, s')
             end
  else
    let copy it' :=
      match slice (it_buf it') (u64 (a - it_base it')) size with
      | Some bs => ret (it', Some bs)
      | None => ub
      end in
    if (it_len it =? 0) || (a <? it_base it)
       || (u64 (it_base it + it_len it) <? u64 (a + size))
    then
      r <- pread a (Z.to_nat pg) ;;
      match r with
      | None => copy {| it_base := a; it_len := 2 ^ 64 - 1; it_buf := it_buf it |}
      | Some bs =>
          let buf := bs ++ skipn (length bs) (it_buf it) in
          if zlen bs <? size
          then ret ({| it_base := a; it_len := it_len it; it_buf := buf |}, None)
          else copy {| it_base := a; it_len := zlen bs; it_buf := buf |}
      end
    else copy it.
