(** The safety check made before function entries are rewritten
    (/repo/src/kpatch_patch.c).  Definitions only. *)
From Coq Require Import ZArith List Bool.
From Verif Require Import Base RemoteModel EngineModel.
Import ListNotations.
Open Scope Z_scope.

(** include/kpatch_patch.h: ACTION_APPLY_PATCH, ACTION_UNAPPLY_PATCH *)
Inductive direction := Apply | Unapply.

(** is_addr_in_info, kpatch_patch.c:61-72 (the macro's [start + len] is 64-bit
    unsigned arithmetic). *)
Definition half_interval (addr start len : Z) : bool :=
  (start <=? addr) && (addr <? u64 (start + len)).
Definition addr_in_info (addr : Z) (i : info) (dir : direction) : bool :=
  match dir with
  | Apply => half_interval addr (daddr i) (dlen i)
  | Unapply => half_interval addr (saddr i) (slen i)
  end.

(** What the loop over frames of one stack sees: the instruction pointer of each
    frame the unwinder can reach, innermost first, and how unw_step(3) finally
    ends: 0 (no more frames) or a negative error.  The loop body runs before the
    first unw_step (kpatch_patch.c:129, 157-158), so there is a first frame.
    [sk_rest] are the frames reached by unw_step, [sk_hidden] those that exist but
    come after the point where the unwinder stops (empty when it reaches the end).
    Simplification: unw_get_reg (132), whose result the code ignores, succeeds. *)
Record stack := { sk_ip : Z; sk_rest : list Z; sk_err : bool; sk_hidden : list Z }.

(** The loop over the hunks, kpatch_patch.c:134-146: the new value of [last] when
    some hunk contains [ip], [None] when the loop ends with i == ninfo. *)
Fixpoint hunk_of (dir : direction) (infos : list info) (ip : Z) : option Z :=
  match infos with
  | [] => None
  | i :: r =>
      if is_new_func i then hunk_of dir r ip
      else if addr_in_info ip i dir
           then Some (match dir with Apply => daddr i | Unapply => saddr i end)
           else hunk_of dir r ip
  end.

(** object_patch_verify_safety_single, kpatch_patch.c:113-164: the loop over the
    frames [ip :: rest]; returns ([last], [retip]).  [retip] is the caller's
    variable, changed only at line 151. *)
Fixpoint scan (paranoid : bool) (dir : direction) (infos : list info)
    (ip : Z) (rest : list Z) (prev : bool) (last retip : Z) : Z * Z :=
  let next prev last retip :=
    match rest with
    | [] => (last, retip)
    | ip' :: rest' => scan paranoid dir infos ip' rest' prev last retip
    end in
  match hunk_of dir infos ip with
  | Some l => next true l retip
  | None =>
      if prev then (if paranoid then next false last ip else (last, ip))
      else next false last retip
  end.

Definition verify_single (paranoid : bool) (dir : direction) (infos : list info)
    (sk : stack) (retip : Z) : Z * Z :=
  scan paranoid dir infos (sk_ip sk) (sk_rest sk) false 0 retip.

(** One thread or coroutine as patch_verify_safety meets it: the unwind context
    cannot be created or initialised (kpatch_patch.c:183-194, 217-228), or it can. *)
Inductive look := NoContext | Unwound (sk : stack).

(** KPATCH_CORO_STACK_UNSAFE, kpatch_patch.c:166 *)
Definition coro_unsafe : Z := 2 ^ 20.

(** The coroutine loop, kpatch_patch.c:178-206; [None] is "return -1". *)
Fixpoint verify_coros (dir : direction) (infos : list info) (cs : list look) (failed : Z)
  : option Z :=
  match cs with
  | [] => Some failed
  | NoContext :: _ => None
  | Unwound sk :: r =>
      let '(last, _) := verify_single false dir infos sk 0 in
      verify_coros dir infos r (if last =? 0 then failed else failed + 1)
  end.

(** The thread loop, kpatch_patch.c:210-244.  [retip] is the local variable of
    line 175: never initialised, and shared by all the iterations.  Returns the
    number of unsafe threads ([None] for "return -1") and the entries of [retips]
    (zero unless set, 286). *)
Fixpoint verify_threads (dir : direction) (infos : list info) (ts : list look)
    (retip : Z) (failed : Z) : option Z * list Z :=
  match ts with
  | [] => (Some failed, [])
  | NoContext :: r => (None, map (fun _ => 0) ts)
  | Unwound sk :: r =>
      let '(last, retip') := verify_single false dir infos sk retip in
      let '(res, rs) :=
        verify_threads dir infos r retip' (if last =? 0 then failed else failed + 1) in
      (res, (if last =? 0 then 0 else retip') :: rs)
  end.

(** patch_verify_safety, kpatch_patch.c:168-247: an int, and [retips].  [junk] is
    the value found in the uninitialised [retip]. *)
Definition verify_safety (dir : direction) (infos : list info) (coros threads : list look)
    (junk : Z) : Z * list Z :=
  let zeros := map (fun _ => 0) threads in
  match verify_coros dir infos coros 0 with
  | None => (-1, zeros)
  | Some f =>
      if negb (f =? 0) then (s32 (Z.lor f coro_unsafe), zeros)
      else match verify_threads dir infos threads junk 0 with
           | (None, rs) => (-1, rs)
           | (Some f, rs) => (s32 f, rs)
           end
  end.

(** What the rest of the world answers to one patch_ensure_safety: the threads and
    coroutines seen first; malloc; the results of kpatch_ptrace_execute_until (given
    the addresses) and of kpatch_process_attach, ints; the threads and coroutines
    seen afterwards; the garbage in the uninitialised variable each time. *)
Record world := {
  w_malloc : bool;
  w_coros : list look; w_threads : list look; w_junk : Z;
  w_until : list Z -> Z; w_attach : Z;
  w_coros' : list look; w_threads' : list look; w_junk' : Z }.

(** patch_ensure_safety, kpatch_patch.c:265-306.  [ret] is an unsigned long, so the
    int results are sign-extended first. *)
Definition ensure_safety (dir : direction) (infos : list info) (w : world) : Z :=
  if negb (w_malloc w) then -1
  else
    let '(r1, retips) := verify_safety dir infos (w_coros w) (w_threads w) (w_junk w) in
    let ret := u64 r1 in
    let ret :=
      if negb (ret =? 0) && (Z.land ret coro_unsafe =? 0) then
        let ret := u64 (w_until w retips) in
        let ret := if ret =? 0 then u64 (w_attach w) else ret in
        if ret =? 0
        then u64 (fst (verify_safety dir infos (w_coros' w) (w_threads' w) (w_junk' w)))
        else ret
      else ret in
    if ret =? 0 then 0 else -1.

(** The check as the engine (EngineModel.v) calls it: 0 lets it go on, -1 makes it
    return an error (kpatch_patch.c:442-444, 697-699).  What the threads look like
    may depend on the state [s] of the patient.  Simplification: what the patient's
    own threads write while they are run forward is not represented. *)
Definition safety_answer (dir : direction) (W : st -> world) (infos : list info)
  : M unit :=
  fun s => if ensure_safety dir infos (W s) =? 0
           then (Ret tt, s) else (Err, s).
