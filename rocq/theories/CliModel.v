(** The command line: kpatch_user.c, libcare-ctl.c, and the option parser of glibc as
    these use it.  Definitions only. *)
From Coq Require Import String.
From Verif Require Import Base StorageModel.
Open Scope list_scope.

(** ** getopt *)

(** getopt of glibc.  libcare-ctl.c:27 and libcare-server.c:313 call it first with
    "+vh"; setting optind to 1 (kpatch_user.c:386) does not initialise it again, so in
    the commands, too, options end at the first operand.  One event per option found:
    the option and its argument, or '?'; [e_rest]: characters of the same word follow,
    and the parser keeps a pointer to them. *)
Record gevent := { e_opt : option Z; e_arg : list Z; e_rest : bool }.
(** The options without and with argument. *)
Record gspec := { g_flags : list Z; g_args : list Z }.
Definition mem_z (c : Z) (l : list Z) : bool := existsb (Z.eqb c) l.
Definition nonempty {A} (l : list A) : bool := match l with [] => false | _ => true end.

(** One word, without its dash: events, and the option that wants the next word. *)
Fixpoint scan_word (g : gspec) (w : list Z) : list gevent * option Z :=
  match w with
  | [] => ([], None)
  | c :: t =>
      if mem_z c (g_args g) then
        match t with
        | [] => ([], Some c)
        | _ => ([{| e_opt := Some c; e_arg := t; e_rest := false |}], None)
        end
      else
        let '(es, p) := scan_word g t in
        ({| e_opt := if mem_z c (g_flags g) then Some c else None; e_arg := [];
            e_rest := nonempty t |} :: es, p)
  end.
(** All words: events, and the operands. *)
Fixpoint getopt (g : gspec) (pend : option Z) (args : list (list Z)) : list gevent * list (list Z) :=
  match args with
  | [] => (match pend with
           | Some _ => [{| e_opt := None; e_arg := []; e_rest := false |}]
           | None => []
           end, [])
  | a :: r =>
      match pend with
      | Some c => let '(es, ops) := getopt g None r in
                  ({| e_opt := Some c; e_arg := a; e_rest := false |} :: es, ops)
      | None =>
          match a with
          | 45 :: c :: t =>
              if list_eqb a [45; 45] then ([], r)
              else let '(es1, p) := scan_word g (c :: t) in
                   let '(es2, ops) := getopt g p r in (es1 ++ es2, ops)
          | _ => ([], a :: r)
          end
      end
  end.

(** ** Commands *)

(** What a command comes to: the usage text for an error or for help, or an operation on
    a process (-1: all). *)
Inductive cmd_out :=
  | UsageErr | UsageHelp
  | RunPatch (pid : Z) (path : list Z)
  | RunUnpatch (pid : Z) (id : list Z) (sel : list (list Z))
  | RunInfo (pid : Z).

Definition ch_p : Z := 112.  Definition ch_i : Z := 105.
Definition ch_h : Z := 104.  Definition ch_v : Z := 118.

(** The loop over options of the three commands: lines 114-126, 180-195, 291-304.
    State: pid, whether it was set, id.  [all]: "all" is known.  Result of the loop or
    the usage; whether the parser still points into a word. *)
Record copts := { o_pid : Z; o_set : bool; o_id : option (list Z) }.
Fixpoint opt_loop (handled : list Z) (all : bool) (es : list gevent) (s : copts)
  : (copts + cmd_out) * bool :=
  match es with
  | [] => (inl s, false)
  | e :: r =>
      match e_opt e with
      | Some c =>
          if c =? ch_h then (inr UsageHelp, e_rest e)
          else if negb (mem_z c handled) then (inr UsageErr, e_rest e)
          else if c =? ch_p then
            opt_loop handled all r
              {| o_pid := if all && list_eqb (e_arg e) (str "all") then o_pid s else atoi (e_arg e);
                 o_set := true; o_id := o_id s |}
          else if c =? ch_i then
            opt_loop handled all r {| o_pid := o_pid s; o_set := o_set s; o_id := Some (e_arg e) |}
          else opt_loop handled all r s
      | None => (inr UsageErr, e_rest e)
      end
  end.
Definition opt0 : copts := {| o_pid := -1; o_set := false; o_id := None |}.

(** cmd_patch_user, kpatch_user.c:106-146; [args] without the command itself, so argc is
    one more.  "hsp:r:", of which s and r are not handled.  argv[argc - 1] is the last word. *)
Definition cmd_patch (args : list (list Z)) : cmd_out * bool :=
  if zlen args <? 3 then (UsageHelp, false)
  else let '(es, ops) := getopt {| g_flags := [104; 115]; g_args := [112; 114] |} None args in
       match opt_loop [ch_p] true es opt0 with
       | (inr u, b) => (u, b)
       | (inl s, b) => if o_set s then (RunPatch (o_pid s) (last args []), b) else (UsageErr, b)
       end.
(** cmd_unpatch_user, kpatch_user.c:172-209 *)
Definition cmd_unpatch (args : list (list Z)) : cmd_out * bool :=
  if zlen args <? 3 then (UsageHelp, false)
  else let '(es, ops) := getopt {| g_flags := [104]; g_args := [112; 105] |} None args in
       match opt_loop [ch_p; ch_i] true es opt0 with
       | (inr u, b) => (u, b)
       | (inl s, b) => match o_set s, o_id s with
                       | true, Some id => (RunUnpatch (o_pid s) id ops, b)
                       | _, _ => (UsageErr, b)
                       end
       end.
(** cmd_info_user, kpatch_user.c:287-312 *)
Definition cmd_info (args : list (list Z)) : cmd_out * bool :=
  let '(es, ops) := getopt {| g_flags := [104; 118]; g_args := [112] |} None args in
  match opt_loop [ch_p; ch_v] false es opt0 with
  | (inr u, b) => (u, b)
  | (inl s, b) => (RunInfo (o_pid s), b)
  end.

(** execute_cmd, kpatch_user.c:382-396: [None] for an unknown command. *)
Inductive command := CPatch | CUnpatch | CInfo.
Definition command_of (cmd : list Z) : option command :=
  if list_eqb cmd (str "patch") || list_eqb cmd (str "patch-user") then Some CPatch
  else if list_eqb cmd (str "unpatch") || list_eqb cmd (str "unpatch-user") then Some CUnpatch
  else if list_eqb cmd (str "info") || list_eqb cmd (str "info-user") then Some CInfo
  else None.
Definition parse_cmd (cmd : list Z) (args : list (list Z)) : option (cmd_out * bool) :=
  match command_of cmd with
  | Some CPatch => Some (cmd_patch args)
  | Some CUnpatch => Some (cmd_unpatch args)
  | Some CInfo => Some (cmd_info args)
  | None => None
  end.
(** The result: usage_patch etc. return err ? 0 : -1 (lines 76-86, 159-170, 211-222),
    usage -1 (line 379); [run]: the result of the operation. *)
Definition execute_cmd (run : cmd_out -> Z) (cmd : list Z) (args : list (list Z)) : Z :=
  match parse_cmd cmd args with
  | None => -1
  | Some (UsageErr, _) => 0
  | Some (UsageHelp, _) => -1
  | Some (o, _) => run o
  end.

(** Commands executed one after the other by the server (libcare-server.c:137): the
    parser's pointer outlives the command it points into.  [Stale]: getopt reads there. *)
Inductive served := Served (o : option cmd_out) | Stale.
Definition reaches_getopt (cmd : list Z) (args : list (list Z)) : bool :=
  match command_of cmd with
  | None => false
  | Some CInfo => true
  | Some _ => 3 <=? zlen args
  end.
Fixpoint serve (pend : bool) (cmds : list (list Z * list (list Z))) : list served :=
  match cmds with
  | [] => []
  | (cmd, args) :: r =>
      if pend && reaches_getopt cmd args then [Stale]
      else match parse_cmd cmd args with
           | None => Served None :: serve pend r
           | Some (o, b) => Served (Some o) :: serve (if reaches_getopt cmd args then b else pend) r
           end
  end.

(** ** All processes *)

(** strtoul with base 10: the value and what follows the number; a minus sign negates
    modulo 2^64, no digits leave the end at the start. *)
Fixpoint after_digits (s : list Z) : list Z :=
  match s with c :: r => if is_digit c then after_digits r else s | [] => [] end.
Definition strtoul (s : list Z) : Z * list Z :=
  let num r := match r with
               | c :: _ => if is_digit c then Some (Z.min (digits r 0) (2 ^ 64 - 1), after_digits r)
                           else None
               | [] => None
               end in
  match skip_space s with
  | c :: r =>
      if c =? 45 then match num r with
                      | Some (v, e) => (if v =? 2 ^ 64 - 1 then v else u64 (- v), e) | None => (0, s) end
      else if c =? 43 then match num r with Some x => x | None => (0, s) end
      else match num (c :: r) with Some x => x | None => (0, s) end
  | [] => (0, s)
  end.

(** The pid an entry of /proc stands for, kpatch_user.c:333-341. *)
Definition entry_pid (self : Z) (name : list Z) : option Z :=
  match name with
  | 46 :: _ => None
  | _ => let '(v, e) := strtoul name in
         let pid := s32 v in
         if (pid =? 0) || nonempty e || (pid =? 1) || (pid =? self) then None else Some pid
  end.
(** processes_do, kpatch_user.c:317-365: [exe]: readlink of exe succeeds; [cb]: result of
    the call-back, by number of the call and pid.  Result and the pids called for. *)
Fixpoint do_entries (self : Z) (exe : Z -> bool) (cb : nat -> Z -> Z) (n : nat) (ret : Z)
    (names : list (list Z)) : Z * list Z :=
  match names with
  | [] => (ret, [])
  | x :: r =>
      match entry_pid self x with
      | None => do_entries self exe cb n ret r
      | Some pid =>
          if negb (exe pid) then do_entries self exe cb n ret r
          else let rv := cb n pid in
               let ret' := if rv <? 0 then -1 else ret in
               if rv =? -2 then (ret', [pid])
               else let '(f, l) := do_entries self exe cb (S n) ret' r in (f, pid :: l)
      end
  end.
Definition processes_do (self : Z) (exe : Z -> bool) (cb : nat -> Z -> Z) (pid : Z)
    (proc : option (list (list Z))) : Z * list Z :=
  if negb (pid =? -1) then (cb O pid, [pid])
  else match proc with
       | None => (-1, [])
       | Some names => do_entries self exe cb O 0 names
       end.
