(** Messages: kpatch_log.c, include/kpatch_log.h, and the level of messages in
    kpatch_user.c, libcare-ctl.c and libcare-server.c.  Definitions only. *)
From Coq Require Import String.
From Verif Require Import Base StorageModel CliModel.
Open Scope list_scope.

Section Log.
(** What the nth call of fprintf or vfprintf leaves in errno ([None]: it is left alone), and
    what the nth call of elf_errno returns (0 also where libelf is not linked). *)
Variable wr : nat -> option Z.
Variable elf : nat -> Z.
(** The texts "%s(%d): ", "errno = %d, msg = '%s'\n" and "errno_elf = %d, msg = '%s'\n". *)
Variable place : list Z -> Z -> list Z.
Variable errno_line elf_line : Z -> list Z.

(** [s_out]: what was written, with whether to stderr, the latest last. *)
Record st := { s_errno : Z; s_n : nat; s_out : list (bool * list Z) }.
Definition set_errno (e : Z) (s : st) : st := {| s_errno := e; s_n := s_n s; s_out := s_out s |}.
Definition put (to_err : bool) (t : list Z) (s : st) : st :=
  {| s_errno := match wr (s_n s) with Some e => e | None => s_errno s end; s_n := S (s_n s);
     s_out := s_out s ++ [(to_err, t)] |}.

Definition LOG_ERR := 0.
Definition LOG_WARN := 1.
Definition LOG_INFO := 2.

(** __valog, kpatch_log.c:12-19 *)
Definition valog (level : Z) (prefix : option (list Z)) (msg : list Z) (s : st) : st :=
  let e := level <=? LOG_WARN in
  put e msg (match prefix with Some p => put e p s | None => s end).

(** kplog, kpatch_log.c:21-46.  [None]: log_indent is outside the array of eight. *)
Definition kplog (log_level log_indent level : Z) (msg : list Z) (s : st) : option st :=
  if log_level <? level then Some s
  else if (0 <=? log_indent) && (log_indent <? 8) then
    Some (set_errno (s_errno s) (valog level (Some (repeat 32 (Z.to_nat log_indent))) msg s))
  else None.

(** __valogerror, kpatch_log.c:61-82 *)
Definition valogerror (file : list Z) (line : Z) (msg : list Z) (s : st) : st :=
  let sv := s_errno s in
  let s1 := valog LOG_ERR None msg (put true (place file line) s) in
  let s2 := if sv =? 0 then s1 else put true (errno_line (s_errno s1)) s1 in
  let s3 := let e := elf (s_n s2) in if e =? 0 then s2 else put true (elf_line e) s2 in
  set_errno sv s3.

(** A call in the source: the text is made from the arguments, which may look at errno (as
    strerror(errno) does).  kplogerror and kperr are the macros of kpatch_log.h:22-30; the
    arguments of kperr are evaluated after it has set errno to 0. *)
Inductive call :=
  | Log (level : Z) (text : Z -> list Z)
  | LogError (file : list Z) (line : Z) (text : Z -> list Z)
  | Kperr (file : list Z) (line : Z) (text : Z -> list Z)
  | Fatal (text : Z -> list Z)                                  (* kpfatal, lines 48-57 *)
  | FatalError (file : list Z) (line : Z) (text : Z -> list Z).  (* _kpfatalerror, lines 93-102 *)
Inductive out := Done (s : st) | Exit (code : Z) (s : st) | Undefined.
Definition step (log_level log_indent : Z) (c : call) (s : st) : out :=
  match c with
  | Log level t => match kplog log_level log_indent level (t (s_errno s)) s with Some s' => Done s' | None => Undefined end
  | LogError f l t => Done (valogerror f l (t (s_errno s)) s)
  | Kperr f l t =>
      let sv := s_errno s in
      let s1 := set_errno 0 s in
      Done (set_errno sv (valogerror f l (t (s_errno s1)) s1))
  | Fatal t => Exit 1 (valog LOG_ERR (Some (str "FATAL! ")) (t (s_errno s)) s)
  | FatalError f l t => Exit 1 (valogerror f l (t (s_errno s)) s)
  end.
Fixpoint run (log_level log_indent : Z) (cs : list call) (s : st) : out :=
  match cs with
  | [] => Done s
  | c :: r => match step log_level log_indent c s with Done s' => run log_level log_indent r s' | o => o end
  end.
End Log.

(** ** The level *)

(** main of libcare-ctl (libcare-ctl.c:27-37) and libcare-server (libcare-server.c:313-323):
    log_level is LOG_INFO (kpatch_log.c:9) and one more for each -v; [None]: usage.  The rest
    of the command line. *)
Fixpoint count_v (es : list gevent) (lv : Z) : option Z :=
  match es with
  | [] => Some lv
  | e :: r => match e_opt e with Some c => if c =? ch_v then count_v r (lv + 1) else None | None => None end
  end.
Definition main_level (args : list (list Z)) : option (Z * list (list Z)) :=
  let '(es, ops) := getopt {| g_flags := [118; 104]; g_args := [] |} None args in
  match count_v es LOG_INFO with Some lv => Some (lv, ops) | None => None end.

(** The level after a command: cmd_info_user sets it to LOG_ERR unless it was given -v
    (kpatch_user.c:306-307), for the rest of the program; nothing else sets it. *)
Definition level_after (cmd : list Z) (args : list (list Z)) (lv : Z) : Z :=
  match command_of cmd with
  | Some CInfo =>
      let '(es, _) := getopt {| g_flags := [104; 118]; g_args := [112] |} None args in
      match fst (opt_loop [ch_p; ch_v] false es opt0) with
      | inr _ => lv
      | inl _ => if existsb (fun e => match e_opt e with Some c => c =? ch_v | None => false end) es then lv else LOG_ERR
      end
  | _ => lv
  end.
Definition levels_after (cmds : list (list Z * list (list Z))) (lv : Z) : Z :=
  fold_left (fun l c => level_after (fst c) (snd c) l) cmds lv.
(** The first message of the patch command, kpinfo at kpatch_user.c:140, is written. *)
Definition patch_announced (lv : Z) : bool := LOG_INFO <=? lv.
