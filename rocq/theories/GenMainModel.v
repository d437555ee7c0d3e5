(** kpatch_gensrc as a program: its command line and its files
    (/repo/src/kpatch_gensrc.c:1646-1801, /repo/src/kpatch_io.c:43-123).  Definitions only. *)
From Coq Require Import String.
From Verif Require Import Base StorageModel TextModel DbgModel GenModel.
Open Scope list_scope.

(** ** The command line *)
(** The cases of the switch, 1690-1750; [OBad]: what leads to the usage text. *)
Inductive opt :=
| ODebug (v : text) | OOs (v : text) | OArch (v : text) | OIn (f : text) | OOut (f : text)
| OTest | OFilter | OEh | OExcept | OCfi | ONewlines
| OIgnore (v : text) | OUnlink (v : text) | OAdapt (v : text) | OGot | OGlobal | OBad.
Inductive kind := KFlag (o : opt) | KArg (f : text -> opt).
(** "d:O:i:o:a:f", 1690 *)
Definition short (c : Z) : option kind :=
  if c =? 100 then Some (KArg ODebug) else if c =? 79 then Some (KArg OOs) else if c =? 105 then Some (KArg OIn)
  else if c =? 111 then Some (KArg OOut) else if c =? 97 then Some (KArg OArch) else if c =? 102 then Some (KFlag OFilter) else None.
(** long_opts, 1657-1675 *)
Definition longs : list (text * kind) :=
  [(str "debug", KArg ODebug); (str "os", KArg OOs); (str "arch", KArg OArch); (str "input", KArg OIn); (str "ouput", KArg OOut);
   (str "test-mode", KFlag OTest); (str "dbg-filter", KFlag OFilter); (str "dbg-filter-eh-frame", KFlag OEh);
   (str "dbg-filter-gcc-except-table", KFlag OExcept); (str "dbg-filter-cfi", KFlag OCfi);
   (str "dbg-filter-emit-newlines", KFlag ONewlines); (str "ignore-changes", KArg OIgnore); (str "unlink-symbols", KArg OUnlink);
   (str "must-adapt", KArg OAdapt); (str "force-gotpcrel", KFlag OGot); (str "force-global", KFlag OGlobal)].
(** getopt_long of glibc: the option of that name, or the only one whose name begins so *)
Fixpoint begins (a b : text) : bool :=
  match a, b with [], _ => true | x :: r, y :: s => (x =? y) && begins r s | _, [] => false end.
Definition long (n : text) : option kind :=
  match find (fun o => list_eqb n (fst o)) longs with
  | Some o => Some (snd o)
  | None => match filter (fun o => begins n (fst o)) longs with [o] => Some (snd o) | _ => None end
  end.
(** A name and what follows "=" *)
Fixpoint cut (s : text) : text * option text :=
  match s with
  | [] => ([], None)
  | c :: r => if c =? 61 then ([], Some r) else let '(n, v) := cut r in (c :: n, v)
  end.
(** Letters in one word: options, and one that waits for its argument in the next word *)
Fixpoint cluster (s : text) : list opt * option (text -> opt) :=
  match s with
  | [] => ([], None)
  | c :: r =>
      match short c with
      | None => ([OBad], None)
      | Some (KFlag o) => let '(os, w) := cluster r in (o :: os, w)
      | Some (KArg f) => match r with [] => ([], Some f) | _ => ([f r], None) end
      end
  end.
(** The options in order and the operands, which may stand between them.  Simplification: POSIXLY_CORRECT is not set. *)
Fixpoint scan (args : list text) : list opt * list text :=
  match args with
  | [] => ([], [])
  | a :: r =>
      let arg (f : text -> opt) :=
        match r with
        | [] => ([OBad], [])
        | v :: r' => let '(os, ops) := scan r' in (f v :: os, ops)
        end in
      match a with
      | c :: (_ :: _) as s =>
          if negb (c =? 45) then let '(os, ops) := scan r in (os, a :: ops)
          else if list_eqb a (str "--") then ([], r)
          else if begins (str "--") a then
            let '(n, v) := cut (skipn 2 a) in
            match long n, v with
            | None, _ | Some (KFlag _), Some _ => ([OBad], [])
            | Some (KFlag o), None => let '(os, ops) := scan r in (o :: os, ops)
            | Some (KArg f), Some x => let '(os, ops) := scan r in (f x :: os, ops)
            | Some (KArg f), None => arg f
            end
          else
            match cluster (tl a) with
            | (es, None) => let '(os, ops) := scan r in (es ++ os, ops)
            | (es, Some f) => let '(os, ops) := arg f in (es ++ os, ops)
            end
      | _ => let '(os, ops) := scan r in (os, a :: ops)
      end
  end.

(** ** The files *)
Definition files := text -> option text.
Definition fput (fs : files) (n : text) (v : option text) : files := fun m => if list_eqb m n then v else fs m.
(** What the program runs in: the machine, BUFSIZE - 1, the directory and last part of realpath, which files may be
    read and made, how much of the output there is room for ([None]: all), what an output holds after the program gave up,
    the configuration file /etc/libcare.conf, the page shift as printed, and what is in memory malloc gave. *)
Record genv := { e_arch : parch; e_buf : nat; e_real : text -> text * text; e_read : text -> bool; e_write : text -> bool;
                e_room : option nat; e_torn : text; e_conf : option text; e_shift : text; e_junk : bool }.
(** How it ends: a status, by a signal, never; [Beyond]: standard input or output is named, which is not modelled. *)
Inductive gexit := GExit (status : Z) | Killed | Hang | Beyond.

(** ** main *)
Record mst := { m_fs : files; m_ins : list input; m_out : option text; m_filter : bool; m_test : bool; m_d : dopts;
                m_rhel5 : bool; m_32 : bool; m_ignore : symlist; m_unlink : symlist; m_adapt : symlist; m_got : bool; m_global : bool }.
Inductive mres := Go (s : mst) | Stop (x : gexit) (fs : files).
Definition with_fs (s : mst) fs ins out :=
  {| m_fs := fs; m_ins := ins; m_out := out; m_filter := m_filter s; m_test := m_test s; m_d := m_d s; m_rhel5 := m_rhel5 s; m_32 := m_32 s;
     m_ignore := m_ignore s; m_unlink := m_unlink s; m_adapt := m_adapt s; m_got := m_got s; m_global := m_global s |}.
Definition with_mode (s : mst) f t d :=
  {| m_fs := m_fs s; m_ins := m_ins s; m_out := m_out s; m_filter := f; m_test := t; m_d := d; m_rhel5 := m_rhel5 s; m_32 := m_32 s;
     m_ignore := m_ignore s; m_unlink := m_unlink s; m_adapt := m_adapt s; m_got := m_got s; m_global := m_global s |}.
Definition with_os (s : mst) r b got gl :=
  {| m_fs := m_fs s; m_ins := m_ins s; m_out := m_out s; m_filter := m_filter s; m_test := m_test s; m_d := m_d s; m_rhel5 := r; m_32 := b;
     m_ignore := m_ignore s; m_unlink := m_unlink s; m_adapt := m_adapt s; m_got := got; m_global := gl |}.
Definition with_syms (s : mst) i u a :=
  {| m_fs := m_fs s; m_ins := m_ins s; m_out := m_out s; m_filter := m_filter s; m_test := m_test s; m_d := m_d s; m_rhel5 := m_rhel5 s; m_32 := m_32 s;
     m_ignore := i; m_unlink := u; m_adapt := a; m_got := m_got s; m_global := m_global s |}.
Definition syms (s : mst) (r : res symlist) (f : symlist -> mst) : mres :=
  match r with Ok l => Go (f l) | _ => Stop Killed (m_fs s) end.
(** 1691-1749; read_file and create_file, kpatch_io.c:43-97: the files are read and made while the options are read.
    Simplification: the contents are cut into lines later; different names are different files. *)
Definition step (e : genv) (o : opt) (s : mst) : mres :=
  match o with
  | ODebug _ => Go s                                                            (* 1692-1694, logging only *)
  | OIn f =>
      if Nat.leb 2 (length (m_ins s)) then Stop (GExit 1) (m_fs s)               (* 1696-1697 *)
      else if list_eqb f (str "-") then Stop Beyond (m_fs s)
      else match (if e_read e f then m_fs s f else None) with
           | None => Stop (GExit 1) (m_fs s)                                     (* 1698-1699 *)
           | Some c => Go (with_fs s (m_fs s) (m_ins s ++ [{| in_dir := fst (e_real e f); in_base := snd (e_real e f); in_content := c |}]) (m_out s))
           end
  | OOut f =>
      if list_eqb f (str "-") then Stop Beyond (m_fs s)
      else if e_write e f then Go (with_fs s (fput (m_fs s) f (Some [])) (m_ins s) (Some f))
      else Stop (GExit 1) (m_fs s)                                               (* 1705-1706 *)
  | OOs v => Go (with_os s (if list_eqb v (str "rhel5") then true else if list_eqb v (str "rhel6") then false else m_rhel5 s) (m_32 s) (m_got s) (m_global s))
  | OArch v => Go (with_os s (m_rhel5 s) (if list_eqb v (str "i686") then true else if list_eqb v (str "x86_64") then false else m_32 s) (m_got s) (m_global s))
  | OTest => Go (with_mode s (m_filter s) true (m_d s))
  | OFilter => Go (with_mode s true (m_test s) (m_d s))
  | OEh => Go (with_mode s (m_filter s) (m_test s) {| do_eh := true; do_except := do_except (m_d s); do_cfi := do_cfi (m_d s); do_newlines := do_newlines (m_d s) |})
  | OExcept => Go (with_mode s (m_filter s) (m_test s) {| do_eh := do_eh (m_d s); do_except := true; do_cfi := do_cfi (m_d s); do_newlines := do_newlines (m_d s) |})
  | OCfi => Go (with_mode s (m_filter s) (m_test s) {| do_eh := do_eh (m_d s); do_except := do_except (m_d s); do_cfi := true; do_newlines := do_newlines (m_d s) |})
  | ONewlines => Go (with_mode s (m_filter s) (m_test s) {| do_eh := do_eh (m_d s); do_except := do_except (m_d s); do_cfi := do_cfi (m_d s); do_newlines := true |})
  | OIgnore v => syms s (parse_sym_list (m_ignore s) v) (fun l => with_syms s l (m_unlink s) (m_adapt s))
  | OUnlink v => syms s (parse_sym_list (m_unlink s) v) (fun l => with_syms s (m_ignore s) l (m_adapt s))
  | OAdapt v => syms s (parse_sym_list (m_adapt s) v) (fun l => with_syms s (m_ignore s) (m_unlink s) l)
  | OGot => Go (with_os s (m_rhel5 s) (m_32 s) true (m_global s))
  | OGlobal => Go (with_os s (m_rhel5 s) (m_32 s) (m_got s) true)
  | OBad => Stop (GExit 255) (m_fs s)                                            (* 1747-1749, -1 *)
  end.
Fixpoint steps (e : genv) (os : list opt) (s : mst) : mres :=
  match os with [] => Go s | o :: r => match step e o s with Go s' => steps e r s' | Stop x fs => Stop x fs end end.
(** The options of the analysis; --test-mode drops the configuration file, 1758-1760 *)
Definition opts (e : genv) (s : mst) : gopts :=
  {| go_rhel5 := m_rhel5 s; go_32 := m_32 s; go_ignore := m_ignore s; go_unlink := m_unlink s; go_adapt := m_adapt s;
     go_conf := if m_test s then None else e_conf e; go_got := m_got s; go_global := m_global s; go_shift := e_shift e; go_junk := e_junk e |}.
(** The output is written through stdio; neither fprintf nor fclose (kpatch_io.c:107-108) is asked whether it worked. *)
Definition written (e : genv) (t : text) : text := match e_room e with None => t | Some n => firstn n t end.
Definition deliver (e : genv) (fs : files) (o : text) (r : res text) : gexit * files :=
  match r with
  | Ok t => (GExit 0, fput fs o (Some (written e t)))
  | Fatal => (GExit 1, fput fs o (Some (e_torn e)))                              (* kpfatal *)
  | Crash => (Killed, fput fs o (Some (e_torn e)))
  | Fuel => (Hang, fput fs o (Some (e_torn e)))
  end.
(** 1753-1801 *)
Definition finish (e : genv) (ops : list text) (s : mst) : gexit * files :=
  match ops, m_out s with
  | [], Some o =>
      if m_filter s then
        match m_ins s with
        | [] => (GExit 1, m_fs s)                                                (* 1764-1765 *)
        | i :: _ => deliver e (m_fs s) o (dbg_filter (e_arch e) (m_d s) (e_buf e) i)
        end
      else
        match m_ins s with
        | [i0; i1] => deliver e (m_fs s) o (gensrc (e_arch e) (opts e s) (e_buf e) i0 i1)
        | _ => (GExit 1, m_fs s)                                                 (* 1773-1774 *)
        end
  | _, _ => (GExit 255, m_fs s)                                                  (* 1753-1756 *)
  end.
Definition gstart (fs : files) : mst :=
  {| m_fs := fs; m_ins := []; m_out := None; m_filter := false; m_test := false;
     m_d := {| do_eh := false; do_except := false; do_cfi := false; do_newlines := false |};
     m_rhel5 := false; m_32 := false; m_ignore := []; m_unlink := []; m_adapt := []; m_got := false; m_global := false |}.
(** main, without the program's name *)
Definition gmain (e : genv) (fs : files) (args : list text) : gexit * files :=
  let '(os, ops) := scan args in
  match steps e os (gstart fs) with Go s => finish e ops s | Stop x fs' => (x, fs') end.
