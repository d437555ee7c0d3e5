(** Vocabulary for the statements about the library that announces programs. *)
From Coq Require Import String.
From Verif Require Import Base StorageModel ExecModel.
Open Scope list_scope.

(** ** The calls *)

(** What the caller asks for. *)
Definition file (c : call) : text :=
  match c with Execve f _ _ | Execv f _ | Execvpe f _ _ | Execvp f _ | Execl f _ | Execlp f _ | Execle f _ _ => f end.
Definition args_of (c : call) : list text :=
  match c with Execve _ a _ | Execv _ a | Execvpe _ a _ | Execvp _ a | Execl _ a | Execlp _ a | Execle _ a _ => a end.
Definition env_of (w : world) (c : call) : list text :=
  match c with Execve _ _ e | Execvpe _ _ e | Execle _ _ e => e | _ => w_environ w end.
(** The calls that look for a name without slash in PATH. *)
Definition in_path (c : call) : Prop :=
  match c with Execvpe _ _ _ | Execvp _ _ | Execlp _ _ => ~ In 47 (file c) | _ => False end.
(** The calls with the arguments one by one, of which there are too many. *)
Definition too_many (c : call) : Prop :=
  match c with Execl _ a | Execlp _ a | Execle _ a _ => (1024 <= length a)%nat | _ => False end.
(** What the same call does without the library, given the environment [env]. *)
Definition real_call (w : world) (c : call) (env : list text) : ev * option Z :=
  match c with
  | Execvpe f a _ | Execvp f a | Execlp f a =>
      if in_dec Z.eq_dec 47 f then (Exec f a env, w_exec w f a env) else (ExecSearch f a env, w_search w f a env)
  | _ => (Exec (file c) (args_of c) env, w_exec w (file c) (args_of c) env)
  end.
(** A program is known by its name if that is absolute or has no slash, by its real path
    otherwise. *)
Definition known_as (w : world) (f n : text) : Prop :=
  (((exists r, f = 47 :: r) \/ ~ In 47 f) /\ n = f) \/
  ((forall r, f <> 47 :: r) /\ In 47 f /\ w_real w f = Some n).
Definition matched (w : world) (f : text) : Prop := exists m n, w_pat w = Some m /\ known_as w f n /\ m n = true.
Definition unmatched (w : world) (f : text) : Prop := forall m, w_pat w = Some m -> exists n, known_as w f n /\ m n = false.

(** ** The environment *)
Definition prefix (p s : text) : Prop := exists r, s = p ++ r.
Definition infix (p s : text) : Prop := exists a b, s = a ++ p ++ b.
(** The value of LD_PRELOAD, libraries separated by colons. *)
Fixpoint libs (l : list text) : text :=
  match l with [] => [] | [x] => x | x :: r => x ++ 58 :: libs r end.
Definition ld_preload (l : list text) : text := str "LD_PRELOAD=" ++ libs l.
(** An entry that is not this library and has nothing like its name in it. *)
Definition plain_lib (x : text) : Prop := ~ In 58 x /\ ~ infix (str "/execve.so") x.
(** This library in the directory [d]. *)
Definition lib_in (d : text) : text := d ++ str "/execve.so".
(** A variable and what the program that is announced gets for it. *)
Inductive var_after : text -> text -> Prop :=
| va_other e : ~ prefix (str "LD_PRELOAD=") e -> var_after e e
| va_none v : ~ infix (str "/execve.so") v -> var_after (str "LD_PRELOAD=" ++ v) (str "LD_PRELOAD=" ++ v)
| va_alone v : ~ In 58 v -> var_after (str "LD_PRELOAD=" ++ v) (str "LD_PRELOAD=" ++ v)
| va_cut before d after : Forall plain_lib before -> plain_lib d -> after <> [] -> before <> [] \/ d <> [] ->
    var_after (ld_preload (before ++ lib_in d :: after)) (str "LD_PRELOAD=" ++ libs before ++ libs after).
