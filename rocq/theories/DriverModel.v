(** The operations on one process as sequences of steps, and what they open and
    release: kpatch_patch.c:process_patch, process_unpatch, kpatch_user.c:process_info,
    kpatch_process.c.  Definitions only. *)
From Verif Require Import Base.

(** Steps whose inside is modelled elsewhere; here only their results count. *)
Inductive step := SInit | SLibs | SKick | SMap | SLookup | SAttach | SCoro | SBefore | SApply | SAfter
  | SUnapply | SInfo | SFree.
Inductive ev := Open (id : nat) | Close (id : nat) | Step (s : step) (r : Z).

(** kpatch_process_t, include/kpatch_process.h:149-200, the things that are opened and
    must be released: fdmaps, memfd, coro.unwd, ptrace.unwd and the thread contexts.
    Each is known by a number; [d_i]: how many answers were taken from outside. *)
Record dst := { d_next : nat; d_i : nat; d_log : list ev; d_maps : nat; d_mem : option nat;
                d_coro : option nat; d_unw : option nat; d_thr : list nat }.
Definition d0 : dst := {| d_next := 0; d_i := 0; d_log := []; d_maps := 0; d_mem := None;
                          d_coro := None; d_unw := None; d_thr := [] |}.
Definition D (A : Type) : Type := dst -> A * dst.
Definition ret {A} (a : A) : D A := fun s => (a, s).
Definition bind {A B} (x : D A) (f : A -> D B) : D B := fun s => let '(a, s') := x s in f a s'.
Notation "x <- m ;; k" := (bind m (fun x => k)) (at level 61, m at next level, right associativity).
Notation "m ;;; k" := (bind m (fun _ => k)) (at level 61, right associativity).

Definition emit (e : ev) : D unit := fun s =>
  (tt, {| d_next := d_next s; d_i := d_i s; d_log := d_log s ++ [e]; d_maps := d_maps s; d_mem := d_mem s;
          d_coro := d_coro s; d_unw := d_unw s; d_thr := d_thr s |}).
Definition set_maps (x : nat) : D unit := fun s =>
  (tt, {| d_next := d_next s; d_i := d_i s; d_log := d_log s; d_maps := x; d_mem := d_mem s;
          d_coro := d_coro s; d_unw := d_unw s; d_thr := d_thr s |}).
Definition set_mem (x : option nat) : D unit := fun s =>
  (tt, {| d_next := d_next s; d_i := d_i s; d_log := d_log s; d_maps := d_maps s; d_mem := x;
          d_coro := d_coro s; d_unw := d_unw s; d_thr := d_thr s |}).
Definition set_coro (x : option nat) : D unit := fun s =>
  (tt, {| d_next := d_next s; d_i := d_i s; d_log := d_log s; d_maps := d_maps s; d_mem := d_mem s;
          d_coro := x; d_unw := d_unw s; d_thr := d_thr s |}).
Definition set_unw (x : option nat) : D unit := fun s =>
  (tt, {| d_next := d_next s; d_i := d_i s; d_log := d_log s; d_maps := d_maps s; d_mem := d_mem s;
          d_coro := d_coro s; d_unw := x; d_thr := d_thr s |}).
Definition set_thr (x : list nat) : D unit := fun s =>
  (tt, {| d_next := d_next s; d_i := d_i s; d_log := d_log s; d_maps := d_maps s; d_mem := d_mem s;
          d_coro := d_coro s; d_unw := d_unw s; d_thr := x |}).
Definition get {A} (f : dst -> A) : D A := fun s => (f s, s).
(** Something new is opened. *)
Definition open_ : D nat := fun s =>
  (d_next s, {| d_next := S (d_next s); d_i := d_i s; d_log := d_log s ++ [Open (d_next s)];
                d_maps := d_maps s; d_mem := d_mem s; d_coro := d_coro s; d_unw := d_unw s; d_thr := d_thr s |}).
Definition close_ (id : nat) : D unit := emit (Close id).
Definition close_opt (o : option nat) : D unit := match o with Some id => close_ id | None => ret tt end.

Section Run.
(** The answers of the system, one after the other. *)
Variable orc : nat -> Z.
Definition ask : D Z := fun s =>
  (orc (d_i s), {| d_next := d_next s; d_i := S (d_i s); d_log := d_log s; d_maps := d_maps s; d_mem := d_mem s;
                   d_coro := d_coro s; d_unw := d_unw s; d_thr := d_thr s |}).
(** A step done elsewhere. *)
Definition do_step (x : step) : D Z := r <- ask ;; emit (Step x r) ;;; ret r.
Definition done_step (x : step) (r : Z) : D Z := emit (Step x r) ;;; ret r.

(** kpatch_process_mem_open, kpatch_process.c:723-740 *)
Definition mem_open : D Z :=
  m <- get d_mem ;; close_opt m ;;;
  r <- ask ;;
  if r <? 0 then set_mem None ;;; ret (-1)
  else id <- open_ ;; set_mem (Some id) ;;; ret 0.

Fixpoint close_all (l : list nat) : D unit :=
  match l with [] => ret tt | id :: r => close_ id ;;; close_all r end.
(** process_detach, kpatch_process.c:614-650 *)
Definition detach : D unit :=
  m <- get d_mem ;; close_opt m ;;; set_mem None ;;;
  u <- get d_unw ;; close_opt u ;;;
  t <- get d_thr ;; close_all t ;;; set_thr [].

(** kpatch_ptrace_attach_thread for [n] new threads, kpatch_process.c:777-790 and
    kpatch_ptrace.c:694-748: the context is in the list before anything else fails. *)
Fixpoint attach_threads (n : nat) : D Z :=
  match n with
  | O => ret 0
  | S k =>
      a <- ask ;;
      if a <? 0 then ret (-1)
      else id <- open_ ;; t <- get d_thr ;; set_thr (id :: t) ;;;
           r <- ask ;; if r <? 0 then ret (-1) else attach_threads k
  end.

Variables just send : bool.   (* is_just_started; send_fd != -1 *)

(** kpatch_process_attach, kpatch_process.c:742-819; [left]: attempts left. *)
Inductive att := AOk | ADetach | ADealloc.
Fixpoint attempts (first : bool) (left : nat) : D att :=
  match left with
  | O => ret ADetach
  | S k =>
      npids <- ask ;;
      if npids =? -1 then ret ADetach
      else
        same <- (if first then ret false else x <- ask ;; ret (x =? 0)) ;;
        if same then ret AOk
        else if just && (1 <? npids) && negb send then ret ADealloc
        else n <- ask ;;
             r <- attach_threads (Z.to_nat n) ;;
             if r <? 0 then ret ADetach else attempts false k
  end.
Definition attach : D Z :=
  r <- mem_open ;;
  if r <? 0 then ret (-1)
  else a <- attempts true 3 ;;
       match a with
       | ADealloc => ret (-1)
       | ADetach => detach ;;; ret (-1)
       | AOk => u <- get d_unw ;;
                match u with
                | Some _ => ret 0
                | None => c <- ask ;;
                          if c <? 0 then detach ;;; ret (-1)
                          else id <- open_ ;; set_unw (Some id) ;;; ret 0
                end
       end.

(** kpatch_process_init, kpatch_process.c:1118-1154, with kpatch_coroutines_init,
    kpatch_coro.c:431-447 *)
Definition init : D Z :=
  r <- ask ;;
  if r <? 0 then ret (-1)
  else m <- open_ ;; set_maps m ;;; set_mem None ;;; set_unw None ;;; set_thr [] ;;; set_coro None ;;;
       c <- (if just then ret 0
             else x <- ask ;; if x <? 0 then ret (-1)
                              else id <- open_ ;; set_coro (Some id) ;;; ret 0) ;;
       if c <? 0 then close_ m ;;; ret (-1)
       else g <- ask ;; if g <? 0 then close_ m ;;; ret (-1) else ret 0.

(** kpatch_process_free, kpatch_process.c:1167-1184 *)
Definition free : D unit :=
  m <- get d_maps ;; close_ m ;;; c <- get d_coro ;; close_opt c ;;; detach.

(** The arch part of kickstart_execve_wrapper (arch_ptrace.c:43-138 of x86): threads other
    than the one left are dropped, the memory is opened anew. *)
Fixpoint drop_threads (l : list nat) : D (list nat) :=
  match l with
  | [] => ret []
  | id :: r => keep <- ask ;; k <- drop_threads r ;;
               if keep =? 0 then ret (id :: k) else close_ id ;;; ret k
  end.
(** kpatch_process_kickstart_execve_wrapper, kpatch_process.c:946-972 *)
Definition kickstart : D Z :=
  r <- ask ;;
  if r <? 0 then ret (-1)
  else t <- get d_thr ;; t' <- drop_threads t ;; set_thr t' ;;;
       m <- get d_mem ;; close_opt m ;;;
       o <- ask ;;
       if o <? 0 then set_mem None ;;; ret (-1)
       else id <- open_ ;; set_mem (Some id) ;;;
            x <- get d_maps ;; close_ x ;;;
            l <- ask ;;
            if l <? 0 then ret (-1)
            else y <- open_ ;; set_maps y ;;; g <- ask ;; ret (if g <? 0 then -1 else 0).
(** kpatch_process_load_libraries, kpatch_process.c:985-1028 *)
Definition load_libraries : D Z :=
  if negb just then ret 0
  else r <- attach ;;
       if r <? 0 then ret (-1)
       else k <- (if send then kickstart else ret 0) ;;
            if k <? 0 then ret (-1)
            else e <- ask ;; if e <? 0 then ret e
                             else u <- ask ;; ret (if u <? 0 then -1 else 1).
(** kpatch_process_kick_send_fd, kpatch_process.c:974-983 *)
Definition kick : D Z := if negb send || just then ret 0 else ask.

(** process_patch, kpatch_patch.c:498-595: the part up to out_free. *)
Definition patch_body : D Z :=
  r <- mem_open ;; if r <? 0 then ret r else
  r <- (x <- load_libraries ;; done_step SLibs x) ;; if r <? 0 then ret r else
  r <- (x <- kick ;; done_step SKick x) ;; if r <? 0 then ret r else
  r <- do_step SMap ;; if r <? 0 then ret r else
  r <- do_step SLookup ;; if r <=? 0 then ret r else
  r <- (x <- attach ;; done_step SAttach x) ;; if r <? 0 then ret r else
  r <- do_step SCoro ;; if r <? 0 then ret r else
  r <- do_step SBefore ;; if r <? 0 then ret r else
  r <- do_step SApply ;;
  do_step SAfter ;;;
  ret r.
(** process_unpatch, kpatch_patch.c:789-843 *)
Definition unpatch_body : D Z :=
  r <- (x <- attach ;; done_step SAttach x) ;; if r <? 0 then ret r else
  r <- do_step SMap ;; if r <? 0 then ret r else
  r <- do_step SCoro ;; if r <? 0 then ret r else
  do_step SUnapply.
(** process_info, kpatch_user.c:257-285; the loop over objects is one step. *)
Definition info_body : D Z :=
  r <- mem_open ;; if r <? 0 then ret r else
  r <- do_step SMap ;; if r <? 0 then ret r else
  do_step SInfo.

(** The frame common to them; the result for the caller. *)
Definition driver (body : D Z) (final : Z -> Z) : D Z :=
  r <- (x <- init ;; done_step SInit x) ;;
  if r <? 0 then ret (final r)
  else x <- body ;; free ;;; done_step SFree 0 ;;; ret (final x).
(** A positive number (of hunks) becomes 0, lines 585-594 and 835-843. *)
Definition positive_ok (r : Z) : Z := if r <? 0 then r else 0.
Definition process_patch : D Z := driver patch_body positive_ok.
Definition process_unpatch : D Z := driver unpatch_body positive_ok.
Definition process_info : D Z := driver info_body (fun r => r).
End Run.
