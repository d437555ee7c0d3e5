(** Giving a process back: kpatch_process.c, process_detach, process_list_threads and the
    attaching it undoes.  Definitions only. *)
From Coq Require Import String.
From Verif Require Import Base StorageModel.
Open Scope list_scope.

(** ** The kernel's view of threads *)
(** What waitpid tells of a thread, sys/wait.h *)
Inductive wstat := WStopped (sig : Z) | WExited (code : Z) | WSignaled (sig : Z).
(** A thread is not traced; traced and stopped, which the tool knows; traced and not
    stopped, with what the next waitpid will tell ([None]: nothing ever happens to it);
    traced and dead, not waited for; not there any more. *)
Inductive kst := Free | Held | Moving (next : option wstat) | Dead (how : wstat) | Gone.
(** The process: its threads, the first of which is the leader, and their state *)
Record kern := { k_group : list Z; k_state : Z -> kst }.
Definition set_state (t : Z) (s : kst) (k : kern) : kern :=
  {| k_group := k_group k; k_state := fun u => if u =? t then s else k_state k u |}.
Definition is_gone (s : kst) : bool := match s with Gone => true | _ => false end.
(** The kernel does not tell of the death of a leader before all other threads of the
    process are gone, and a traced thread is gone only when its tracer has waited for it
    (kernel/exit.c, delay_group_leader). *)
Definition delayed (t : Z) (k : kern) : bool :=
  match k_group k with
  | l :: r => (t =? l) && negb (forallb (fun u => is_gone (k_state k u)) r)
  | [] => false
  end.
(** ptrace(PTRACE_DETACH): the thread must be stopped, else ESRCH. *)
Definition ptrace_detach (t : Z) (k : kern) : bool * kern :=
  match k_state k t with
  | Held => (true, set_state t Free k)
  | _ => (false, k)
  end.
(** waitpid(t, &status, __WALL): [None] when it never returns, otherwise the status, or
    none with ECHILD.  A stop is told once.  Simplification: EINTR is left out. *)
Definition wait_thread (t : Z) (k : kern) : option (option wstat * kern) :=
  let reap s := if delayed t k then None else Some (Some s, set_state t Gone k) in
  match k_state k t with
  | Free | Gone => Some (None, k)
  | Held | Moving None => None
  | Moving (Some (WStopped s)) => Some (Some (WStopped s), set_state t Held k)
  | Moving (Some s) => reap s
  | Dead s => reap s
  end.

(** ** The tool *)
(** struct kpatch_ptrace_ctx: pid, running.  The list is in the order in which the
    contexts were made: list_add puts an entry before the head, include/list.h:62-73. *)
Record ctx := { c_pid : Z; c_running : bool }.
Inductive outcome (A : Type) := Done (a : A) | Hangs.
Arguments Done {A}. Arguments Hangs {A}.

(** The loop around waitpid, kpatch_process.c:646-648: it ends with an error of waitpid
    or a status for which WIFEXITED holds.  Each turn but the last changes the state of
    the thread, three turns are enough. *)
Fixpoint wait_exit (n : nat) (t : Z) (k : kern) : outcome kern :=
  match n with
  | O => Hangs
  | S n' =>
      match wait_thread t k with
      | None => Hangs
      | Some (None, k') => Done k'
      | Some (Some (WExited _), k') => Done k'
      | Some (Some _, k') => wait_exit n' t k'
      end
  end.
(** kpatch_ptrace_detach, kpatch_ptrace.c:751-769: whether it answers -ESRCH *)
Definition detach_thread (p : ctx) (k : kern) : bool * kern :=
  if c_pid p =? 0 then (false, k)
  else let '(ok, k') := ptrace_detach (c_pid p) k in (negb ok, k').
(** process_detach, kpatch_process.c:614-653, the loop over the contexts *)
Fixpoint process_detach (cs : list ctx) (k : kern) : outcome kern :=
  match cs with
  | [] => Done k
  | p :: r =>
      let '(esrch, k') := detach_thread p k in
      if esrch && negb (c_running p)
      then match wait_exit 3 (c_pid p) k' with
           | Done k'' => process_detach r k''
           | Hangs => Hangs
           end
      else process_detach r k'
  end.

(** kpatch_ptrace_attach_thread, kpatch_ptrace.c:694-749: the new context, at the end of
    the list.  [aw]: whether the loop around waitpid (PtraceModel.attach_wait) succeeds
    for the thread; if not, the thread is traced and moves. *)
Definition attach_thread (aw : Z -> bool) (t : Z) (cs : list ctx) (k : kern) : bool * list ctx * kern :=
  match k_state k t with
  | Free => if aw t then (true, cs ++ [{| c_pid := t; c_running := false |}], set_state t Held k)
            else (false, cs ++ [{| c_pid := t; c_running := true |}], set_state t (Moving (Some (WStopped 19))) k)
  | _ => (false, cs ++ [{| c_pid := t; c_running := true |}], k)
  end.
(** The loop over the threads listed, kpatch_process.c:777-791, when nothing is attached
    yet *)
Fixpoint attach_all (aw : Z -> bool) (ts : list Z) (cs : list ctx) (k : kern) : bool * list ctx * kern :=
  match ts with
  | [] => (true, cs, k)
  | t :: r =>
      if existsb (fun c => c_pid c =? t) cs then attach_all aw r cs k
      else let '(ok, cs', k') := attach_thread aw t cs k in
           if ok then attach_all aw r cs' k' else (false, cs', k')
  end.

(** ** process_list_threads, kpatch_process.c:655-707 *)
(** An array of [size] ints of which the first are [l] *)
Record array := { a_size : nat; a_data : list Z }.
Inductive listed := LOk (pids : array) (n alloc : nat) | LFail | LOutside.
(** pids[i] = x *)
Definition store (a : array) (i : nat) (x : Z) : option array :=
  if Nat.ltb i (a_size a) then Some {| a_size := a_size a; a_data := firstn i (a_data a) ++ x :: skipn (S i) (a_data a) |} else None.
(** [alive]: whether the next calls of realloc succeed *)
Fixpoint list_loop (names : list (list Z)) (alive : list bool) (a : array) (n alloc : nat) : listed :=
  match names with
  | [] => LOk a n alloc
  | d :: r =>
      if (match d with c :: _ => c =? 46 | [] => false end) then list_loop r alive a n alloc
      else
        let put a' alive' alloc' :=
          match store a' n (atoi d) with
          | Some a'' => list_loop r alive' a'' (S n) alloc'
          | None => LOutside
          end in
        if Nat.leb alloc n
        then let alloc' := match alloc with O => 1%nat | _ => (alloc * 2)%nat end in
             match alive with
             | false :: _ => LFail
             | true :: v => put {| a_size := alloc'; a_data := a_data a |} v alloc'
             | [] => put {| a_size := alloc'; a_data := a_data a |} [] alloc'
             end
        else put a alive alloc
  end.
(** [names]: the directory's entries, [None] if it cannot be opened; the array of an
    earlier call is used again. *)
Definition list_threads (names : option (list (list Z))) (alive : list bool) (a : array) (alloc : nat) : listed :=
  match names with
  | None => LFail
  | Some l => list_loop l alive a 0 alloc
  end.

(** Not code: SIGKILL of a process, every thread of it that is there dies; the traced ones
    stay until they are waited for. *)
Definition killed (k : kern) : kern :=
  {| k_group := k_group k;
     k_state := fun t => if existsb (Z.eqb t) (k_group k)
                         then match k_state k t with
                              | Free | Gone => Gone
                              | Dead h => Dead h
                              | _ => Dead (WSignaled 9)
                              end
                         else k_state k t |}.
