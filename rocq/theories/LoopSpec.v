(** Vocabulary for the statements about the server. *)
From Coq Require Import String.
From Verif Require Import Base StorageModel ServModel ServSpec CliModel CliSpec LoopModel.
Open Scope list_scope.

(** The words of a client's message, if one is executed; [client_args] etc. in C40 say what
    a client has to send for that. *)
Definition request (i : input) : option (list (list Z)) :=
  match i with IConn c => match handle_client (c_recv c) with HExec a => Some a | _ => None end | _ => None end.
(** Commands whose output is not for the client. *)
Definition quiet (cmd : list Z) : Prop :=
  In cmd [str "execve"; str "startup"; str "update"; str "storage"; str "stop"].

(** What happens from taking connection [n] up to taking the next. *)
Fixpoint until (tr : list event) : list event :=
  match tr with [] => [] | EAccept _ :: _ => [] | e :: r => e :: until r end.
Fixpoint during (n : nat) (tr : list event) : list event :=
  match tr with
  | [] => []
  | EAccept m :: r => if Nat.eqb m n then until r else during n r
  | _ :: r => during n r
  end.

(** The bytes written to something. *)
Fixpoint written (tr : list event) : list Z :=
  match tr with [] => [] | EWrite _ bs :: r => bs ++ written r | _ :: r => written r end.

(** A server starts with these descriptors: standard output and error are open and kept
    when a program is executed, it listens, 101 and 102 are free to be used, and so is one
    below them. *)
Record started (lim : nat) (sfd : Z) (t : fdt) : Prop := {
  st_lim : (103 <= lim)%nat;
  st_out : exists o, t 1 = Some (o, false) /\ (forall n, o <> OConn n);
  st_err : exists o, t 2 = Some (o, false) /\ (forall n, o <> OConn n);
  st_listen : exists b, t sfd = Some (OListen, b);
  st_sfd : sfd <> 1 /\ sfd <> 2 /\ sfd <> 101 /\ sfd <> 102;
  st_room : exists f, 0 <= f <= 100 /\ t f = None;
  st_no_conn : forall fd n b, t fd <> Some (OConn n, b) }.
Definition initial (dir : list Z) (t : fdt) : st := {| s_dir := dir; s_child := 0; s_fds := t; s_n := 0 |}.

(** The directory after some requests. *)
Fixpoint dir_after (d : list Z) (rs : list (option (list (list Z)))) : list Z :=
  match rs with
  | [] => d
  | Some (cmd :: args) :: r => dir_after (if list_eqb cmd (str "storage") then firstn 4095 (hd [] args) else d) r
  | _ :: r => dir_after d r
  end.

(** Processes that were started and not waited for. *)
Fixpoint remove_pid (p : Z) (l : list Z) : list Z :=
  match l with [] => [] | q :: r => if q =? p then remove_pid p r else q :: remove_pid p r end.
Fixpoint children_from (l : list Z) (tr : list event) : list Z :=
  match tr with
  | [] => l
  | EFork p :: r => children_from (p :: l) r
  | EWait p :: r => children_from (remove_pid p l) r
  | _ :: r => children_from l r
  end.
Definition children : list event -> list Z := children_from [].
(** fork gives a number that is no process's yet. *)
Definition forks_ok (l : list input) : Prop :=
  forall c p, In (IConn c) l -> c_fork c = FParent p -> 0 < p.
(** The number a kill command names. *)
Definition killed_by (i : input) (p : Z) : Prop :=
  exists args, request i = Some (str "kill" :: args) /\ scan_d (hd [] args) = Some p.

(** A client that is served to its end: it goes away early, or its command is not stop and the
    operation comes back with a result that is not the number for stopping (operations return
    0 or a negative number). *)
Definition served_well (i : input) : Prop :=
  match i with
  | IConn c => match handle_client (c_recv c) with
               | HClosed => True
               | HExec argv => hd [] argv <> str "stop" /\ c_ret c <= 0 /\ c_fork c <> FChild true
               | _ => False
               end
  | _ => False
  end.

(** The name in an address of 110 bytes or less, unix(7): up to a NUL for a name in the file
    system, all the bytes for an abstract name.  [None]: it cannot be told because bytes that
    were never written count. *)
Inductive uname := UPath (s : list Z) | UAbstract (s : list Z).
Fixpoint path_part (l : list (option Z)) : option (list Z) :=
  match l with
  | [] => Some []
  | Some 0 :: _ => Some []
  | Some c :: r => match path_part r with Some s => Some (c :: s) | None => None end
  | None :: _ => None
  end.
Fixpoint all_bytes (l : list (option Z)) : option (list Z) :=
  match l with
  | [] => Some []
  | Some c :: r => match all_bytes r with Some s => Some (c :: s) | None => None end
  | None :: _ => None
  end.
Definition unix_name (l : list (option Z)) : option uname :=
  match l with
  | Some 0 :: r => option_map UAbstract (all_bytes r)
  | _ => option_map UPath (path_part l)
  end.
