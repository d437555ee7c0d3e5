(** The server: libcare-server.c, all but handle_client (ServModel); and the address the
    client connects to.  Definitions only. *)
From Coq Require Import String.
From Verif Require Import Base StorageModel ServModel CliModel.
Open Scope list_scope.

(** ** Descriptors *)

(** What a descriptor stands for; [OConn n]: the n-th connection accepted, from 0. *)
Inductive obj := OStdin | OStdout | OStderr | OListen | OConn (n : nat) | OOther (k : Z).
(** The table of a process: object and close-on-exec flag. *)
Definition fdt := Z -> option (obj * bool).
Definition fset (t : fdt) (fd : Z) (x : option (obj * bool)) : fdt := fun i => if i =? fd then x else t i.

Section Server.
(** The number of descriptors a process may have, and the descriptor that is listened on
    (libcare-server.c:282). *)
Variable lim : nat.
Variable sfd : Z.

(** accept4 gives the lowest free number. *)
Definition is_free (t : fdt) (fd : Z) : bool := match t fd with None => true | Some _ => false end.
Definition lowest (t : fdt) : option Z := option_map Z.of_nat (find (fun i => is_free t (Z.of_nat i)) (seq 0 lim)).
(** dup3(old, new, O_CLOEXEC) and dup2(old, new): table and result. *)
Definition dup3 (t : fdt) (old new : Z) : fdt * Z :=
  match t old with
  | Some (o, _) => if (old =? new) || (new <? 0) || (Z.of_nat lim <=? new) then (t, -1)
                   else (fset t new (Some (o, true)), new)
  | None => (t, -1)
  end.
Definition dup2 (t : fdt) (old new : Z) : fdt :=
  match t old with
  | Some (o, _) => if (old =? new) || (new <? 0) || (Z.of_nat lim <=? new) then t else fset t new (Some (o, false))
  | None => t
  end.
(** What execve leaves. *)
Definition at_exec (t : fdt) : fdt := fun i => match t i with Some (o, false) => Some (o, false) | _ => None end.

(** ** What the server does *)

Inductive event :=
  | EAccept (n : nat)                        (* connection number n is taken *)
  | EWrite (o : option obj) (bs : list Z)    (* bytes are written; [None]: the descriptor is closed *)
  | EPatch (dir : list Z) (pid : Z) (just : bool) (fd : option obj)   (* patch_user; [fd]: send_fd, [None] for -1 *)
  | EOp (cmd : list Z) (args : list (list Z))                         (* execute_cmd *)
  | ESignal (pid : Z) | EWait (pid : Z)      (* kill(pid, SIGTERM), waitpid(pid) *)
  | EFork (pid : Z)                          (* fork, seen by the parent *)
  | EExec (cmd : list Z) (fds : fdt)         (* the forked process becomes sh -c cmd *)
  | EClose (o : option obj).                 (* close; [None]: it was closed before *)

(** libcare-server.c:17 and 48: the static variables; [s_dir] is the string in
    storage_dir. *)
Record st := { s_dir : list Z; s_child : Z; s_fds : fdt; s_n : nat }.
Definition with_fds (s : st) (t : fdt) : st := {| s_dir := s_dir s; s_child := s_child s; s_fds := t; s_n := s_n s |}.
Definition with_child (s : st) (p : Z) : st := {| s_dir := s_dir s; s_child := p; s_fds := s_fds s; s_n := s_n s |}.
Definition with_dir (s : st) (d : list Z) : st := {| s_dir := d; s_child := s_child s; s_fds := s_fds s; s_n := s_n s |}.

(** How fork ends: in the caller, or in the new process, where /bin/sh is executed or
    not. *)
Inductive forkres := FErr | FParent (pid : Z) | FChild (exec_ok : bool).
(** One client: what it sends, how fork ends, and the result and the output of the
    operation it asks for ([true]: on stderr).  Simplified: what is printed is written at
    once.  (stdout is line buffered, line 289, and flushed before the descriptors are set
    back, line 139; the output of patch_user outside of that ends with a newline.) *)
Record conn := { c_recv : list recv_ev; c_fork : forkres; c_ret : Z; c_prints : list (bool * list Z) }.

(** What can happen next: a connection, accept failing, SIGTERM.  Simplified: the signal
    arrives while the server waits for a connection. *)
Inductive input := IConn (c : conn) | IErr | ITerm.

(** [Ret rv]: the function returns; [Gone]: the process became another program. *)
Inductive sres := Ret (rv : Z) | Gone.

Definition obj_of (t : fdt) (fd : Z) : option obj := option_map fst (t fd).
Definition write_fd (t : fdt) (fd : Z) (bs : list Z) : list event :=
  match bs with [] => [] | _ => [EWrite (obj_of t fd) bs] end.
Definition print_all (t : fdt) (ps : list (bool * list Z)) : list event :=
  flat_map (fun p : bool * list Z => write_fd t (if fst p then 2 else 1) (snd p)) ps.

(** sscanf(s, "%d"): [None] if no number is there. *)
Definition has_number (s : list Z) : bool :=
  match skip_space s with
  | c :: r => if (c =? 45) || (c =? 43) then match r with d :: _ => is_digit d | [] => false end else is_digit c
  | [] => false
  end.
Definition scan_d (s : list Z) : option Z := if has_number s then Some (atoi s) else None.

(** printf "%d" of a number that is not negative; ten digits are enough for an int. *)
Fixpoint dec_rec (fuel : nat) (n : Z) (acc : list Z) : list Z :=
  match fuel with
  | O => acc
  | S f => let acc' := (48 + n mod 10) :: acc in if n <? 10 then acc' else dec_rec f (n / 10) acc'
  end.
Definition dec (n : Z) : list Z := dec_rec 10 n [].

Definition PATH_MAX := 4096.
Definition SERVER_STOP := 2 ^ 30.

(** libcare-server.c:39-46 *)
Definition kill_and_wait (pid : Z) : list event := [ESignal pid; EWait pid].

(** argv[1].  A message of one word leaves argv[1] at the NUL behind it, lines 181-183. *)
Definition argv1 (argv : list (list Z)) : list Z := nth 1 argv [].

(** libcare-server.c:19-37.  The result of patch_user is lost.  Here and below the file and line
    a message starts with are left out. *)
Definition cmd_execve_startup (s : st) (c : conn) (fd : Z) (argv : list (list Z)) (just : bool) : list event * Z :=
  match scan_d (argv1 argv) with
  | None => (write_fd (s_fds s) 2 (str "can't parse pid from " ++ argv1 argv), -1)
  | Some pid => (EPatch (s_dir s) pid just (obj_of (s_fds s) fd) :: print_all (s_fds s) (c_prints c), 0)
  end.

(** libcare-server.c:50-73.  The text of the error message is left out. *)
Definition cmd_run (s : st) (c : conn) (argv : list (list Z)) : st * list event * sres :=
  let pre := if s_child s =? 0 then [] else kill_and_wait (s_child s) in
  let s := with_child s 0 in
  match c_fork c with
  | FErr => (s, pre, Ret (-1))
  | FParent pid => (with_child s pid, pre ++ EFork pid :: write_fd (s_fds s) 1 (dec pid ++ [10]), Ret 0)
  | FChild true => (s, pre ++ [EExec (argv1 argv) (at_exec (s_fds s))], Gone)
  | FChild false => (s, pre, Ret (-1))
  end.

(** libcare-server.c:75-89 *)
Definition cmd_kill (s : st) (argv : list (list Z)) : list event * Z :=
  match scan_d (argv1 argv) with
  | None => (write_fd (s_fds s) 2 (str "can't parse pid from " ++ argv1 argv ++ [10]), -1)
  | Some pid => (kill_and_wait pid, 0)
  end.

(** libcare-server.c:91-96: strncpy of at most 4095 bytes; the last byte of the array is
    the NUL it was. *)
Definition cmd_storage (s : st) (argv : list (list Z)) : st := with_dir s (firstn (Z.to_nat (PATH_MAX - 1)) (argv1 argv)).

(** libcare-server.c:98-104 *)
Definition cmd_update (s : st) (c : conn) : list event * Z :=
  (EPatch (s_dir s) (-1) false None :: print_all (s_fds s) (c_prints c), c_ret c).

(** libcare-server.c:125-129 and 142-143 *)
Definition redirect (t : fdt) (fd : Z) : fdt * Z * Z :=
  let '(t, o) := dup3 t 1 101 in
  let '(t, e) := dup3 t 2 102 in
  let '(t, _) := dup3 t fd 1 in
  let '(t, _) := dup3 t fd 2 in
  (t, o, e).
Definition restore (t : fdt) (o e : Z) : fdt := dup2 (dup2 t o 1) e 2.

(** libcare-server.c:106-146 *)
Definition server_execute_cmd (s : st) (c : conn) (fd : Z) (argv : list (list Z)) : st * list event * sres :=
  let cmd := hd [] argv in
  if list_eqb cmd (str "execve") then let '(ev, r) := cmd_execve_startup s c fd argv true in (s, ev, Ret r)
  else if list_eqb cmd (str "startup") then let '(ev, r) := cmd_execve_startup s c fd argv false in (s, ev, Ret r)
  else if list_eqb cmd (str "update") then let '(ev, r) := cmd_update s c in (s, ev, Ret r)
  else if list_eqb cmd (str "storage") then (cmd_storage s argv, [], Ret 0)
  else if list_eqb cmd (str "stop") then (s, [], Ret SERVER_STOP)
  else
    let '(t, o, e) := redirect (s_fds s) fd in
    let s := with_fds s t in
    let '(s, ev, r) :=
      if list_eqb cmd (str "run") then cmd_run s c argv
      else if list_eqb cmd (str "kill") then let '(ev, r) := cmd_kill s argv in (s, ev, Ret r)
      else (s, EOp cmd (tl argv) :: print_all t (c_prints c), Ret (c_ret c)) in
    match r with
    | Gone => (s, ev, Gone)
    | Ret rv => (with_fds s (restore (s_fds s) o e), ev, Ret rv)
    end.

(** close *)
Definition close_fd (s : st) (fd : Z) : st * list event :=
  (with_fds s (fset (s_fds s) fd None), [EClose (obj_of (s_fds s) fd)]).

(** How the server ends, or why it does not go on: it waits for a connection, or for the
    client it talks to; it exited; it became another program; undefined behaviour. *)
Inductive fin := FWaiting | FBlocked | FExit (code : Z) | FGone | FUndefined.

(** libcare-server.c:301-305, and the end of kill_child, 254-262 *)
Definition end_child (s : st) : list event := if s_child s =? 0 then [] else kill_and_wait (s_child s).

(** One connection, lines 292-296 with handle_client 148-193; the result is [None] if the
    server does not come back. *)
Inductive hout := HRet (rv : Z) | HFin (f : fin).
Definition handle_conn (s : st) (c : conn) (fd : Z) : st * list event * hout :=
  match handle_client (c_recv c) with
  | HWait => (s, [], HFin FBlocked)
  | HUndef | HOverrun => (s, [], HFin FUndefined)
  | HClosed => let '(s, ev) := close_fd s fd in
               let '(s, ev') := close_fd s fd in (s, ev ++ ev', HRet 0)
  | HExec argv =>
      let '(s, ev, r) := server_execute_cmd s c fd argv in
      match r with
      | Gone => (s, ev, HFin FGone)
      | Ret rv => let '(s, ev') := close_fd s fd in (s, ev ++ ev', HRet rv)
      end
  end.

(** accept4: a descriptor for connection [s_n s], or an error. *)
Definition accept (s : st) : option (st * Z) :=
  match s_fds s sfd, lowest (s_fds s) with
  | Some (OListen, _), Some fd =>
      Some ({| s_dir := s_dir s; s_child := s_child s; s_fds := fset (s_fds s) fd (Some (OConn (s_n s), true));
               s_n := S (s_n s) |}, fd)
  | _, _ => None
  end.

(** libcare-server.c:291-305; the result is what is returned from main.  Left out: the message
    "server error" on stderr after a negative result. *)
Fixpoint serve_loop (l : list input) (s : st) : st * list event * fin :=
  match l with
  | [] => match accept s with Some _ => (s, [], FWaiting) | None => (s, end_child s, FExit 0) end
  | ITerm :: _ => (s, end_child s, FExit (Z.lor 128 15))
  | IErr :: _ => (s, end_child s, FExit 0)
  | IConn c :: r =>
      match accept s with
      | None => (s, end_child s, FExit 0)
      | Some (s1, fd) =>
          let '(s2, ev, h) := handle_conn s1 c fd in
          match h with
          | HFin f => (s2, EAccept (s_n s) :: ev, f)
          | HRet rv =>
              if rv =? SERVER_STOP then (s2, EAccept (s_n s) :: ev ++ end_child s2, FExit 0)
              else let '(s3, ev', f) := serve_loop r s2 in (s3, EAccept (s_n s) :: ev ++ ev', f)
          end
      end
  end.
End Server.

(** ** Addresses *)

(** libcare-server.c:204-252: the descriptor given by number, the bytes of the address
    that is bound (without the family), refused, or an undefined result: rv is not set
    when socket fails. *)
Inductive bound := BFd (fd : Z) | BAddr (bs : list Z) | BRefused | BUndefined.
Definition SUN_PATH := 108.
Definition bind_socket (socket_ok bind_ok : bool) (path : list Z) : bound :=
  match path with
  | 38 :: r => match scan_d r with Some fd => if fd <? 0 then BRefused else BFd fd | None => BRefused end
  | _ =>
      if SUN_PATH <=? zlen path + 1 then BRefused
      else if negb socket_ok then BUndefined
      else if negb bind_ok then BRefused
      else BAddr (match path with 64 :: r => 0 :: r | _ => path end ++ [0])
  end.

(** libcare-client.c:24-46: the 108 cells of the address; the last is never written. *)
Definition pad (n : nat) (s : list Z) : list Z := s ++ repeat 0 (n - length s).
Definition default_socket : list Z := str "/var/run/libcare.sock".
Definition client_path (argv : list (list Z)) : list Z :=
  match argv with a :: _ => if starts_slash a then a else default_socket | [] => default_socket end.
Definition client_addr (argv : list (list Z)) : list (option Z) :=
  map Some (pad 107 (firstn 107 (client_path argv))) ++ [None].

(** ** From the command line: cmd_server, libcare-server.c:264-306, after the options.
    [storage]: the second argument, copied with strcpy. *)
Definition storage_default : list Z := str "/var/lib/libcare".
Definition start_dir (storage : option (list Z)) : option (list Z) :=
  match storage with
  | None => Some storage_default
  | Some d => if PATH_MAX <=? zlen d then None else Some d
  end.
