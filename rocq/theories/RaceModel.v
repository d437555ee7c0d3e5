(** The process goes on running while the tool looks at it: which image (address space) the
    descriptors of the tool belong to, which memory map it has read, and what it does with
    them.  kpatch_patch.c:process_patch, process_unpatch, kpatch_user.c:process_info,
    kpatch_process.c.  Definitions only. *)
From Verif Require Import Base HoleModel.

(** The processes of the system with their images, and what is mapped in each image.  Kernel;
    not code of the project.  An image has a number that is never used again; [w_next] is
    the next one.  Simplification: only the ranges of the mappings are kept. *)
Record world := { w_tasks : list (Z * nat); w_maps : nat -> list (Z * Z); w_next : nat }.
Fixpoint image_of (pid : Z) (l : list (Z * nat)) : option nat :=
  match l with
  | [] => None
  | (p, i) :: r => if p =? pid then Some i else image_of pid r
  end.
(** An image lives as long as some process has it. *)
Definition alive (w : world) (i : nat) : bool := existsb (fun t => Nat.eqb (snd t) i) (w_tasks w).

(** What processes do: change their mappings; execve another program; exit; appear under a
    number that is free, with an image of their own (fork) or with that of another process
    (vfork, clone with CLONE_VM). *)
Inductive act :=
| AMap (pid : Z) (l : list (Z * Z))
| AExec (pid : Z) (l : list (Z * Z))
| AExit (pid : Z)
| AFork (pid : Z) (l : list (Z * Z))
| AShare (pid from : Z).
Definition actor (a : act) : Z :=
  match a with AMap p _ | AExec p _ | AExit p | AFork p _ | AShare p _ => p end.

Definition set_image (f : nat -> list (Z * Z)) (i : nat) (l : list (Z * Z)) : nat -> list (Z * Z) :=
  fun j => if Nat.eqb j i then l else f j.
Definition leave (pid : Z) (l : list (Z * nat)) : list (Z * nat) := filter (fun t => negb (fst t =? pid)) l.
(** A new image [l] for the process [pid]. *)
Definition fresh_image (pid : Z) (l : list (Z * Z)) (w : world) : world :=
  {| w_tasks := (pid, w_next w) :: leave pid (w_tasks w);
     w_maps := set_image (w_maps w) (w_next w) l; w_next := S (w_next w) |}.
Definition act_do (a : act) (w : world) : world :=
  match a with
  | AMap p l => match image_of p (w_tasks w) with
                | Some i => {| w_tasks := w_tasks w; w_maps := set_image (w_maps w) i l; w_next := w_next w |}
                | None => w
                end
  | AExec p l => match image_of p (w_tasks w) with Some _ => fresh_image p l w | None => w end
  | AExit p => {| w_tasks := leave p (w_tasks w); w_maps := w_maps w; w_next := w_next w |}
  | AFork p l => match image_of p (w_tasks w) with None => fresh_image p l w | Some _ => w end
  | AShare p q => match image_of p (w_tasks w), image_of q (w_tasks w) with
                  | None, Some i => {| w_tasks := (p, i) :: w_tasks w; w_maps := w_maps w; w_next := w_next w |}
                  | _, _ => w
                  end
  end.
(** All threads of a process the tool is attached to are stopped: it does nothing.
    Simplification: it is not killed meanwhile. *)
Fixpoint acts (held : option Z) (l : list act) (w : world) : world :=
  match l with
  | [] => w
  | a :: r => acts held r (match held with
                           | Some p => if actor a =? p then w else act_do a w
                           | None => act_do a w
                           end)
  end.

(** What the tool has: proc->fdmaps and proc->memfd (the image each was opened for), whether
    the process is attached to, the map it has read, the mappings of the process that were
    hit by the tool's own mapping of patches (not a variable of the code). *)
Record tool := { t_maps : option nat; t_mem : option nat; t_held : bool; t_read : list (Z * Z);
                 t_hit : list (Z * Z) }.
Definition tool0 : tool := {| t_maps := None; t_mem := None; t_held := false; t_read := []; t_hit := [] |}.

(** The steps that matter here:
    - [TLock]: lock_process, kpatch_process.c:66-80, opens /proc/pid/maps; the descriptor
      belongs to the image the process has at this moment (kernel, proc_maps_open);
    - [TMem]: kpatch_process_mem_open, kpatch_process.c:723-740, the same with /proc/pid/mem;
    - [TStop]: the threads are attached to, kpatch_process.c:751-795;
    - [TExecve l]: the wrapper is run through its execve, kpatch_process.c:949-951, its image
      then has the mappings [l]; the process stays attached to;
    - [TRun l]: it is run to the entry point, kpatch_process.c:1020-1021, and maps its
      libraries meanwhile;
    - [TRead]: kpatch_process_parse_proc_maps, kpatch_process.c:480-579.  The map of an image
      no process has any more is empty (kernel), the C library is not found in it and the
      function fails, lines 564-568.  Simplification: the map is read at one moment (in fact
      in pieces of a page), and an image is taken to have the C library if it has anything;
    - [TPlace l]: the patches are mapped, kpatch_object_allocate_patch,
      kpatch_process.c:1088-1116, by system calls of the process attached to, with MAP_FIXED.
      Simplification: all of them one after the other (the code fills each before the next);
    - [TWrite]: memory is written through /proc/pid/mem, kpatch_ptrace.c:94-111; to that of an
      image that is gone nothing is written (kernel, mem_rw), a failure, line 110. *)
Inductive tstep := TLock | TMem | TStop | TExecve (l : list (Z * Z)) | TRun (l : list (Z * Z)) | TRead
  | TPlace (l : list request) | TWrite.

(** MAP_FIXED: mappings of the process that lie in [a, b) are replaced there. *)
Definition overlaps (a b : Z) (m : Z * Z) : bool := (fst m <? b) && (a <? snd m).
Definition cut (a b : Z) (m : Z * Z) : list (Z * Z) :=
  if overlaps a b m
  then (if fst m <? a then [(fst m, a)] else []) ++ (if b <? snd m then [(b, snd m)] else [])
  else [m].

Section Tool.
Variables (pg D : Z) (pid : Z).

(** The patches one after the other, HoleModel.place for each; [own]: what the process itself
    has mapped; [hit]: those of its mappings that were replaced. *)
Fixpoint place_all (sp : space) (own hit : list (Z * Z)) (l : list request) : bool * list (Z * Z) * list (Z * Z) :=
  match l with
  | [] => (true, own, hit)
  | r :: l' =>
      match place pg D sp r with
      | (None, _) => (false, own, hit)
      | (Some a, sp') =>
          place_all sp' (flat_map (cut a (a + rq_sz r)) own)
                    (hit ++ filter (overlaps a (a + rq_sz r)) own) l'
      end
  end.

(** [false]: the step fails, and the operation with it. *)
Definition tstep_do (x : tstep) (w : world) (t : tool) : bool * world * tool :=
  match x with
  | TLock =>
      match image_of pid (w_tasks w) with
      | None => (false, w, t)
      | Some i => (true, w, {| t_maps := Some i; t_mem := t_mem t; t_held := t_held t; t_read := t_read t; t_hit := t_hit t |})
      end
  | TMem =>
      match image_of pid (w_tasks w) with
      | None => (false, w, t)
      | Some i => (true, w, {| t_maps := t_maps t; t_mem := Some i; t_held := t_held t; t_read := t_read t; t_hit := t_hit t |})
      end
  | TStop =>
      match image_of pid (w_tasks w) with
      | None => (false, w, t)
      | Some i => (true, w, {| t_maps := t_maps t; t_mem := t_mem t; t_held := true; t_read := t_read t; t_hit := t_hit t |})
      end
  | TExecve l => (true, act_do (AExec pid l) w, t)
  | TRun l => (true, act_do (AMap pid l) w, t)
  | TRead =>
      match t_maps t with
      | None => (false, w, t)
      | Some i =>
          match (if alive w i then w_maps w i else []) with
          | [] => (false, w, t)
          | l => (true, w, {| t_maps := t_maps t; t_mem := t_mem t; t_held := t_held t; t_read := l; t_hit := t_hit t |})
          end
      end
  | TPlace l =>
      match image_of pid (w_tasks w) with
      | Some i =>
          let '(ok, own, hit) :=
            place_all {| sp_holes := gaps pg 0 0 (t_read t); sp_fresh := length (t_read t); sp_used := t_read t |}
                      (w_maps w i) [] l in
          (ok, {| w_tasks := w_tasks w; w_maps := set_image (w_maps w) i own; w_next := w_next w |},
           {| t_maps := t_maps t; t_mem := t_mem t; t_held := t_held t; t_read := t_read t; t_hit := t_hit t ++ hit |})
      | None => (false, w, t)
      end
  | TWrite =>
      match t_mem t with
      | Some m => (alive w m, w, t)
      | None => (false, w, t)
      end
  end.

(** Before each step of the tool processes do something.  [(false, w, t)]: the operation has
    failed, with [w] and [t] at that moment. *)
Fixpoint run (env : list (list act)) (l : list tstep) (w : world) (t : tool) : bool * world * tool :=
  match l with
  | [] => (true, w, t)
  | x :: r =>
      let w1 := acts (if t_held t then Some pid else None) (hd [] env) w in
      let '(ok, w2, t2) := tstep_do x w1 t in
      if ok then run (tl env) r w2 t2 else (false, w2, t2)
  end.

(** kpatch_process_attach, kpatch_process.c:742-813: the memory is opened first. *)
Definition attach_steps : list tstep := [TMem; TStop].
(** process_patch, kpatch_patch.c:511-558; [just]: is_just_started, [send]: send_fd != -1;
    kpatch_process_load_libraries, kpatch_process.c:985-1028, with
    kickstart_execve_wrapper, lines 946-972 and the opening of the memory in
    arch/x86/arch_ptrace.c:118-131 ("Suddenly, /proc/pid/mem gets invalidated").  [lx], [lr]: the mappings after the execve and at the
    entry point. *)
Definition patch_steps (just send : bool) (lx lr : list (Z * Z)) : list tstep :=
  [TLock; TMem]
  ++ (if just then attach_steps ++ (if send then [TExecve lx; TMem; TLock] else []) ++ [TRun lr] else [])
  ++ [TRead] ++ attach_steps.
(** process_unpatch, kpatch_patch.c:801-817 *)
Definition unpatch_steps : list tstep := [TLock] ++ attach_steps ++ [TRead].
(** process_info, kpatch_user.c:264-274 *)
Definition info_steps : list tstep := [TLock; TMem; TRead].
End Tool.
