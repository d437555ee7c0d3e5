(** tests/execve/execve.c: the library that is loaded before others and announces programs to
    the server before they are started.  Definitions only. *)
From Coq Require Import String.
From Verif Require Import Base StorageModel LoopModel.
Open Scope list_scope.

Definition text := list Z.

(** ** filter_environ, lines 142-192 *)

Definition preload : text := str "LD_PRELOAD=".
Definition this_lib : text := str "/execve.so".
Fixpoint begins (p s : text) : bool :=
  match p, s with
  | [], _ => true
  | a :: p', b :: s' => (a =? b) && begins p' s'
  | _, [] => false
  end.
(** strstr: the position of the first occurrence. *)
Fixpoint strstr (p s : text) : option nat :=
  if begins p s then Some O
  else match s with [] => None | _ :: r => option_map S (strstr p r) end.
(** Lines 175-178: back to a colon or to the beginning. *)
Fixpoint back (val : text) (k : nat) : nat :=
  match k with
  | O => O
  | S k' => if nth k val 0 =? 58 then k else back val k'
  end.
(** One variable that begins with LD_PRELOAD=, lines 158-186.  Undefined: strcat is given the
    byte after the end of the value, or the result does not fit the strlen(val) bytes of
    newval. *)
Inductive var := VSame | VNew (s : text) | VUndef.
Definition filter_value (val : text) : var :=
  match strstr this_lib val with
  | None => VSame
  | Some k =>
      if negb (existsb (Z.eqb 58) val) then VSame
      else if (length val <? k + 11)%nat then VUndef
      else
        let newval := preload ++ firstn (back val k) val ++ skipn (k + 11) val in
        if (length val <? length newval + 1)%nat then VUndef else VNew newval
  end.
(** [alloc]: what each malloc gives; after the end of the list they succeed.  FNull: no memory. *)
Inductive fenv := FOk (env : list text) | FNull | FUndef.
Fixpoint filter_vars (alloc : list bool) (env : list text) : fenv :=
  match env with
  | [] => FOk []
  | e :: r =>
      let keep a x := match filter_vars a r with FOk l => FOk (x :: l) | z => z end in
      if begins preload e then
        match filter_value (skipn 11 e) with
        | VSame => keep alloc e
        | VNew x => if hd true alloc then keep (tl alloc) x else FNull
        | VUndef => if hd true alloc then FUndef else FNull
        end
      else keep alloc e
  end.
Definition filter_environ (alloc : list bool) (env : list text) : fenv :=
  if hd true alloc then filter_vars (tl alloc) env else FNull.

(** ** The calls *)

(** What the process does that others see.  Exec and ExecSearch: the next definitions of execve
    and execvpe, those of the C library, are called. *)
Inductive ev := Connect (addr : list Z) | Send (bs : list Z) | Recv | Close | Trap
  | Exec (f : text) (argv env : list text) | ExecSearch (f : text) (argv env : list text).
(** How it ends: a signal, another program, the call returns -1 with errno, or undefined. *)
Inductive fin := Killed (sig : Z) | Replaced | Failed (errno : Z) | Undefined.

(** Results of send and recv. *)
Inductive nres := NOk | NEintr | NErr.
Fixpoint until_done (l : list nres) : bool := match l with NEintr :: r => until_done r | NErr :: _ => false | _ => true end.

(** [w_pat]: fnmatch with KP_EXECVE_PATTERN ([None]: not set); [w_real]: realpath; [w_unix]:
    LIBCARE_CTL_UNIX; [w_traced]: a tracer has attached when the breakpoint is reached and lets the process
    go on; [w_exec], [w_search]: the errors of the real calls, if they return.  Simplification:
    send takes all of the 10 to 20 bytes; SIGTRAP is not handled by the program; the output of
    line 183 and with KP_EXECVE_DEBUG and KP_EXECVE_VERBOSE is left out. *)
Record world := {
  w_pat : option (text -> bool);
  w_real : text -> option text;
  w_unix : option text;
  w_tid : Z;
  w_alloc : list bool;
  w_socket : bool; w_connect : bool; w_send : list nres; w_recv : list nres;
  w_traced : bool;
  w_exec : text -> list text -> list text -> option Z;
  w_search : text -> list text -> list text -> option Z;
  w_environ : list text }.

Section World.
Variable w : world.

Definition has_slash (f : text) : bool := existsb (Z.eqb 47) f.
(** is_listed_binary and lines 201-209; [None]: realpath failed, and fnmatch looks at an array
    nothing may have been written to. *)
Definition listed (f : text) : option bool :=
  match w_pat w with
  | None => Some false
  | Some m =>
      if negb (match f with c :: _ => c =? 47 | [] => false end) && has_slash f
      then option_map m (w_real w f)
      else Some (m f)
  end.

(** notify_listener, lines 73-135.  The address is padded by strncpy. *)
Definition unix_path : text := match w_unix w with Some p => p | None => str "/var/run/libcare.sock" end.
Definition message : list Z := str "execve" ++ 0 :: dec (w_tid w) ++ [0; 0].
Definition notify : list ev * option fin :=
  if negb (w_socket w) then ([], Some (Killed 6))
  else
    let c := Connect (pad 108 (firstn 108 unix_path)) in
    if negb (w_connect w) then ([c; Close], Some (Killed 6))
    else if negb (until_done (w_send w)) then ([c; Send message; Close], Some (Killed 6))
    else if negb (until_done (w_recv w)) then ([c; Send message; Recv], Some (Killed 6))
    else ([c; Send message; Recv; Close; Trap], if w_traced w then None else Some (Killed 5)).

Definition after (r : option Z) : fin := match r with None => Replaced | Some e => Failed e end.
(** execve, lines 194-239.  12: ENOMEM. *)
Definition execve_ (f : text) (argv env : list text) : list ev * fin :=
  match listed f with
  | None => ([], Undefined)
  | Some false => ([Exec f argv env], after (w_exec w f argv env))
  | Some true =>
      match filter_environ (w_alloc w) env with
      | FUndef => ([], Undefined)
      | FNull => ([], Failed 12)
      | FOk env' =>
          match notify with
          | (tr, Some e) => (tr, e)
          | (tr, None) => (tr ++ [Exec f argv env'], after (w_exec w f argv env'))
          end
      end
  end.
(** execvpe, lines 248-258 *)
Definition execvpe_ (f : text) (argv env : list text) : list ev * fin :=
  if has_slash f then execve_ f argv env else ([ExecSearch f argv env], after (w_search w f argv env)).
(** vexecle, lines 267-302: the arguments up to the null pointer; [i]: how many there are so
    far.  38: ENOSYS. *)
Fixpoint collect (i : Z) (acc args : list text) : option (list text) :=
  match args with
  | [] => Some acc
  | a :: r => if i + 1 =? 1024 then None else collect (i + 1) (acc ++ [a]) r
  end.
Definition vexecle (f : text) (args env : list text) (search : bool) : list ev * fin :=
  match collect 0 [] args with
  | None => ([], Failed 38)
  | Some argv => if search then execvpe_ f argv env else execve_ f argv env
  end.

(** The functions, lines 194-332. *)
Inductive call :=
| Execve (f : text) (argv env : list text) | Execv (f : text) (argv : list text)
| Execvpe (f : text) (argv env : list text) | Execvp (f : text) (argv : list text)
| Execl (f : text) (args : list text) | Execlp (f : text) (args : list text) | Execle (f : text) (args env : list text).
Definition run (c : call) : list ev * fin :=
  match c with
  | Execve f argv env => execve_ f argv env
  | Execv f argv => execve_ f argv (w_environ w)
  | Execvpe f argv env => execvpe_ f argv env
  | Execvp f argv => execvpe_ f argv (w_environ w)
  | Execl f args => vexecle f args (w_environ w) false
  | Execlp f args => vexecle f args (w_environ w) true
  | Execle f args env => vexecle f args env false
  end.
End World.
