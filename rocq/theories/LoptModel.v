(** The command line of libcare-patch-make (/repo/src/libcare-patch-make:221-289) and its editing
    of config-host.mak (86-100, 154-156, 166-167).  Definitions only. *)
From Coq Require Import String.
From Verif Require Import Base StorageModel TextModel LpModel.
Open Scope list_scope.

(** * getopt of util-linux, called in 224, which uses getopt_long of glibc *)
Inductive arity := Flag | Arg.
(** "s:ucd:i:b:j:" *)
Definition letters : list (Z * arity) := [(115, Arg); (117, Flag); (99, Flag); (100, Arg); (105, Arg); (98, Arg); (106, Arg)].
(** "srcdir:,update,clean,destdir:,id:,buildid:,jobs:" *)
Definition longs : list (text * arity) :=
  [(str "srcdir", Arg); (str "update", Flag); (str "clean", Flag); (str "destdir", Arg); (str "id", Arg); (str "buildid", Arg); (str "jobs", Arg)].
Definition letter (c : Z) : option arity := match find (fun o => fst o =? c) letters with Some o => Some (snd o) | None => None end.
Fixpoint begins (a b : text) : bool :=
  match a, b with [], _ => true | x :: r, y :: s => (x =? y) && begins r s | _, [] => false end.
(** The option of that name, or the only one whose name begins so *)
Definition long (n : text) : option (text * arity) :=
  match find (fun o => teq n (fst o)) longs with
  | Some o => Some o
  | None => match filter (fun o => begins n (fst o)) longs with [o] => Some o | _ => None end
  end.
(** A name and what follows "=" *)
Fixpoint cut_eq (s : text) : text * option text :=
  match s with
  | [] => ([], None)
  | c :: r => if c =? 61 then ([], Some r) else let '(n, v) := cut_eq r in (c :: n, v)
  end.
(** What getopt prints for an option: its name, and its argument if it takes one *)
Definition item := (text * option text)%type.
Record scanned := Scan { sc_items : list item; sc_operands : list text; sc_bad : bool }.
Definition with_item (i : item) (s : scanned) : scanned := Scan (i :: sc_items s) (sc_operands s) (sc_bad s).
Definition with_operand (w : text) (s : scanned) : scanned := Scan (sc_items s) (w :: sc_operands s) (sc_bad s).
Definition with_bad (s : scanned) : scanned := Scan (sc_items s) (sc_operands s) true.
(** Letters in one word: what is printed, whether one is unknown, and one that waits for its argument *)
Fixpoint cluster (s : text) : list item * bool * option text :=
  match s with
  | [] => ([], false, None)
  | c :: r =>
      match letter c with
      | None => let '(is, _, w) := cluster r in (is, true, w)
      | Some Flag => let '(is, b, w) := cluster r in (([45; c], None) :: is, b, w)
      | Some Arg => match r with [] => ([], false, Some [45; c]) | _ => ([([45; c], Some r)], false, None) end
      end
  end.
(** After an error getopt goes on with the next word.  Simplification: POSIXLY_CORRECT is not set. *)
Fixpoint scan (args : list text) : scanned :=
  match args with
  | [] => Scan [] [] false
  | a :: r =>
      let next (n : text) := match r with [] => Scan [] [] true | v :: r' => with_item (n, Some v) (scan r') end in
      match a with
      | c :: (_ :: _) =>
          if negb (c =? 45) then with_operand a (scan r)
          else if teq a (str "--") then Scan [] r false
          else if begins (str "--") a then
            let '(n, v) := cut_eq (skipn 2 a) in
            match long n, v with
            | None, _ | Some (_, Flag), Some _ => with_bad (scan r)
            | Some (m, Flag), None => with_item (str "--" ++ m, None) (scan r)
            | Some (m, Arg), Some x => with_item (str "--" ++ m, Some x) (scan r)
            | Some (m, Arg), None => next (str "--" ++ m)
            end
          else
            let '(is, b, w) := cluster (tl a) in
            let s := match w with None => scan r | Some n => next n end in
            let s := Scan (is ++ sc_items s) (sc_operands s) (sc_bad s) in
            if b then with_bad s else s
      | _ => with_operand a (scan r)
      end
  end.
(** How getopt quotes for the shell: in single quotes, a quote as '\'' *)
Fixpoint quoted (s : text) : text :=
  match s with [] => [39] | c :: r => if c =? 39 then 39 :: 92 :: 39 :: 39 :: quoted r else c :: quoted r end.
Definition quote (s : text) : text := 39 :: quoted s.
Definition print_item (i : item) : text := 32 :: fst i ++ match snd i with Some v => 32 :: quote v | None => [] end.
Definition print (s : scanned) : text :=
  flat_map print_item (sc_items s) ++ str " --" ++ flat_map (fun w => 32 :: quote w) (sc_operands s).

(** * TEMP=$(getopt ... || usage 1), 224: usage prints its text into TEMP and its exit ends the
    substitution only.  Of the text, 4-27, the first line is rendered. *)
Definition USAGE : text := 10 :: str "Makes `kpatch'es for the makesystem in the current directory.".
Definition temp (args : list text) : text := let s := scan args in print s ++ if sc_bad s then USAGE else [].

(** * eval set -- "$TEMP", 225: the shell cuts the text into words.  [Commands]: there is more in
    the text than words of characters without meaning to the shell, so that parts of it are run. *)
Inductive mode := Out | Word (w : text) | Quoted (w : text) | Escaped (w : text).
Inductive evaluated := Words (ws : list text) | Commands.
Definition ecurrent (m : mode) : text := match m with Out => [] | Word w | Quoted w | Escaped w => w end.
Definition econs (w : text) (e : evaluated) : evaluated := match e with Words ws => Words (w :: ws) | Commands => Commands end.
Fixpoint shell (m : mode) (s : text) : evaluated :=
  match s with
  | [] => match m with Out => Words [] | Word w => Words [w] | Quoted _ | Escaped _ => Commands end
  | c :: r =>
      match m with
      | Quoted w => if c =? 39 then shell (Word w) r else shell (Quoted (w ++ [c])) r
      | Escaped w => if c =? 10 then Commands else shell (Word (w ++ [c])) r
      | Out | Word _ =>
          if (c =? 32) || (c =? 9) then match m with Word w => econs w (shell Out r) | _ => shell Out r end
          else if c =? 39 then shell (Quoted (ecurrent m)) r
          else if c =? 92 then shell (Escaped (ecurrent m)) r
          else if plain_char c then shell (Word (ecurrent m ++ [c])) r
          else Commands
      end
  end.

(** * The loop of main, 227-270.  Only destdir is set before it; the other variables are those of
    the environment. *)
Record conf := Conf { srcdir : text; only_update : bool; do_clean : bool; destdir : text; patch_id : text; given_id : text; jobs : text }.
Definition named (n : text) (a b : string) : bool := teq n (str a) || teq n (str b).
Definition set_value (n v : text) (c : conf) : option conf :=
  if named n "-s" "--srcdir" then Some (Conf v (only_update c) (do_clean c) (destdir c) (patch_id c) (given_id c) (jobs c))
  else if named n "-d" "--destdir" then Some (Conf (srcdir c) (only_update c) (do_clean c) v (patch_id c) (given_id c) (jobs c))
  else if named n "-i" "--id" then Some (Conf (srcdir c) (only_update c) (do_clean c) (destdir c) v (given_id c) (jobs c))
  else if named n "-b" "--buildid" then Some (Conf (srcdir c) (only_update c) (do_clean c) (destdir c) (patch_id c) v (jobs c))
  else if named n "-j" "--jobs" then Some (Conf (srcdir c) (only_update c) (do_clean c) (destdir c) (patch_id c) (given_id c) v)
  else None.
Definition set_flag (n : text) (c : conf) : option conf :=
  if named n "-u" "--update" then Some (Conf (srcdir c) true (do_clean c) (destdir c) (patch_id c) (given_id c) (jobs c))
  else if named n "-c" "--clean" then Some (Conf (srcdir c) (only_update c) true (destdir c) (patch_id c) (given_id c) (jobs c))
  else None.
Fixpoint loop (ws : list text) (c : conf) : option (conf * list text) :=
  match ws with
  | [] => None                                                        (* $1 is empty: usage, 266-268 *)
  | w :: r =>
      if teq w (str "--") then Some (c, r)
      else match set_flag w c with
           | Some c' => loop r c'
           | None => match r with
                     | v :: r' => match set_value w v c with Some c' => loop r' c' | None => None end
                     | [] => None
                     end
           end
  end.
Definition before (env : conf) : conf := Conf (srcdir env) (only_update env) (do_clean env) (str "DESTDIR") (patch_id env) (given_id env) (jobs env).
Inductive options := Read (c : conf) (patches : list text) | Usage | Evaluates.
Definition read_options (env : conf) (args : list text) : options :=
  match shell Out (temp args) with
  | Commands => Evaluates
  | Words ws => match loop ws (before env) with Some (c, fs) => Read c fs | None => Usage end
  end.

(** * The id, 272: the length counts characters; [utf8]: in a locale where those of UTF-8 count *)
Definition chars (utf8 : bool) (s : text) : Z := if utf8 then zlen (filter (fun c => negb ((128 <=? c) && (c <? 192))) s) else zlen s.
Definition id_ok (utf8 : bool) (id : text) : bool := negb (teq id []) && (chars utf8 id <=? 7).
(** 187: the variable is not quoted, so that test is given several words if there are blanks in
    it, and fails.  Simplification: words that mean something to test, and to the shell, are not
    rendered. *)
Definition blank (c : Z) : bool := (c =? 32) || (c =? 9) || (c =? 10).
Definition given_of (b : text) : option text := if teq b [] || existsb blank b then None else Some b.
(** main, 221-289.  [patch_of]: what a patch file does, read from a directory.  [Evaluated]: the
    text of usage is run as commands, which is not rendered. *)
Inductive result := Exits (status : Z) (m : machine) | Evaluated.
Definition lpmake (utf8 : bool) (w : world) (t : tools) (cc libcare proot : text) (gensrc : bool) (env : conf) (patch_of : text -> text -> edits)
  (execs : list (text * text)) (args : list text) (m : machine) : result :=
  match read_options env args with
  | Evaluates => Evaluated
  | Usage => Exits 1 (with_files m (restore_origs (files m)))
  | Read c ps =>
      if negb (id_ok utf8 (patch_id c)) then Exits 1 (with_files m (restore_origs (files m)))
      else let '(st, m') := main_checked w t cc libcare proot gensrc (do_clean c) (only_update c) (patch_id c) (given_of (given_id c)) (map (patch_of (srcdir c)) ps) execs m in
           Exits st m'
  end.

(** * config-host.mak *)
(** Lines, and whether the last one has an end *)
Fixpoint lines_of (s : text) : list text :=
  match s with
  | [] => [[]]
  | c :: r => if c =? 10 then [] :: lines_of r else match lines_of r with l :: ls => (c :: l) :: ls | [] => [[c]] end
  end.
Definition file_lines (s : text) : list text * bool :=
  let ls := lines_of s in
  if teq (last ls []) [] then (removelast ls, true) else (ls, false).
Definition KEY := str "QEMU_LDFLAGS=".
(** grep "^QEMU_LDFLAGS=", 154 *)
Definition flag_lines (s : text) : list text := filter (begins KEY) (fst (file_lines s)).
Fixpoint joined (ls : list text) : text := match ls with [] => [] | [l] => l | l :: ls' => l ++ 10 :: joined ls' end.
Definition grep_flags (s : text) : text := joined (flag_lines s).
Fixpoint contains (p s : text) : bool := begins p s || match s with [] => false | _ :: r => contains p r end.
(** sed -i "/^QEMU_LDFLAGS=/c\TEXT", 92 and 99, on a file.  In the text a backslash stands for the
    character behind it; letters and digits there mean something else, which is not rendered
    ([None]).  At the end of a line of the text the command is over; what follows, a line of
    config-host.mak that begins with Q, is no command, and sed fails and leaves the file.  Each
    line written for another has an end. *)
Fixpoint sed_text (t : text) : option text :=
  match t with
  | [] => Some []
  | c :: r =>
      if c =? 92 then
        match r with
        | d :: r' => if is_digit d || ((65 <=? d) && (d <=? 90)) || ((97 <=? d) && (d <=? 122)) then None
                     else match sed_text r' with Some x => Some (d :: x) | None => None end
        | [] => None
        end
      else match sed_text r with Some x => Some (c :: x) | None => None end
  end.
Definition ended (ls : list text) : text := flat_map (fun l => l ++ [10]) ls.
Definition sed_flags (t s : text) : option text :=
  if existsb (Z.eqb 10) t then Some s
  else match sed_text t with
       | None => None
       | Some x =>
           let '(ls, e) := file_lines s in
           let f l := if begins KEY l then x else l in
           if e || begins KEY (last ls []) then Some (ended (map f ls))
           else Some (ended (removelast (map f ls)) ++ last (map f ls) [])
       end.
(** replace_qemu_ld_flags, 86-94; [bash]: the shell has [[, which dash takes for a program that is not there.
    Simplification: echo gives the words of the variable as they are, there being no * ? or [ in it. *)
Definition MINUS_Q := str "-Wl,-q".
Definition replace_flags (bash : bool) (bak s : text) : option text :=
  if bash && negb (contains MINUS_Q bak) then sed_flags (bak ++ str " -Wl,-q") s else Some s.
(** recover_qemu_ld_flags, 96-100 *)
Definition recover_flags (bak s : text) : option text := sed_flags bak s.
(** 154-167: what the file is while the patched sources are built, and afterwards, if the build
    leaves it alone *)
Definition edit_config (bash : bool) (s : text) : option (text * text) :=
  let bak := grep_flags s in
  match replace_flags bash bak s with
  | Some during => match recover_flags bak during with Some after => Some (during, after) | None => None end
  | None => None
  end.
