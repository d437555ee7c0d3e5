(* The compiler wrapper (src/kpatch_cc.c): what it runs for a given command line, environment and stage.

   Everything it asks the system is an event; a world answers each event knowing all earlier ones. *)
From Coq Require Import ZArith List Bool String.
From Verif Require Import Base StorageModel TextModel.
Import ListNotations.
Open Scope Z_scope.
Open Scope list_scope.

(* Result of a piece of the wrapper: a value, exit with a status (kpccfatal: kpatch_cc.c 1049-1062), or an access outside
   an array (undefined behaviour). *)
Inductive out (A : Type) := Val (a : A) | Exit (rc : Z) | Bad.
Arguments Val {A}. Arguments Exit {A}. Arguments Bad {A}.

(* What the wrapper asks the system.  Run: run_cmd, 635-661, with the answer of waitpid (a wait status, or a negative
   number when waitpid fails); Exec: the execv of emulate_cc, 948-952; Copy: copy_file, 995-1047, with 0 for success (its loop is
   CopyModel); Rename, Access and Mkdir: the system calls, 0 or an error number.  Simplified: debug output, unlink before
   a copy, and malloc failures are not events; a child in which execv fails is taken to exit with 129. *)
Inductive ev :=
| Run (path : text) (args : list text)
| Exec (path : text) (args : list text)
| Copy (from to : text)
| Rename (from to : text)
| Access (f : text)
| Mkdir (d : text).

Definition hist := list (ev * Z).                    (* newest first *)
Definition world := hist -> ev -> Z.

Definition M (A : Type) := hist -> out A * hist.
Definition ret {A} (a : A) : M A := fun h => (Val a, h).
Definition exit {A} (rc : Z) : M A := fun h => (Exit rc, h).
Definition bad {A} : M A := fun h => (Bad, h).
Definition mbind {A B} (x : M A) (f : A -> M B) : M B :=
  fun h => match x h with (Val a, h') => f a h' | (Exit rc, h') => (Exit rc, h') | (Bad, h') => (Bad, h') end.
Notation "'get' x <- a ; b" := (mbind a (fun x => b)) (at level 200, x name, a at level 100, b at level 200).

(* Stages and actions: 112-143. *)
Inductive stage := Original | Patched | Configure.
Inductive action := AError | APass | AVersion | AShowV | ACpp | ACompile | AAsm | AAsmCpp | AGen | AMulti.

(* stdin_path: 145. *)
Definition dash : text := str "-".

(* split_args: 181-197.  strtok with one delimiter: the pieces between semicolons that are not empty, with their offset;
   more than MAX_MODIFY_ARGS of them are fatal.  Simplified: strtok also cuts the variable in the environment that the
   children inherit; they do not read it. *)
Fixpoint pieces (off start : nat) (cur s : text) : list (nat * text) :=
  match s with
  | [] => match cur with [] => [] | _ => [(start, cur)] end
  | c :: s' =>
    if c =? 59
    then match cur with [] => pieces (S off) (S off) [] s' | _ => (start, cur) :: pieces (S off) (S off) [] s' end
    else pieces (S off) start (cur ++ [c]) s'
  end.
Definition split_args (s : text) : out (list (nat * text)) :=
  let l := pieces 0 0 [] s in
  if Nat.ltb 32 (length l) then Exit 129 else Val l.

(* get_file_type: 199-252; lang is argv[idxlang_arg]. *)
Inductive ftype := FSrc | FAsm | FAsmCpp | FObj | FNull.
Definition srcexts : list text := [str "c"; str "cp"; str "cpp"; str "cxx"; str "c++"; str "C"; str "CPP"].
Fixpoint after_last (c : Z) (s : text) : option text :=       (* strrchr, the text after the character *)
  match s with
  | [] => None
  | x :: s' => match after_last c s' with Some r => Some r | None => if x =? c then Some s' else None end
  end.
Definition teq (a b : text) : bool := list_eqb a b.
Definition get_file_type (lang : option text) (arg : text) : out ftype :=
  if teq arg dash
  then match lang with
       | None => Bad
       | Some l =>
         let l' := match l with 45 :: r => tl r | _ => l end in
         Val (if teq l' (str "assembler") then FAsm else if teq l' (str "assembler-with-cpp") then FAsmCpp else FSrc)
       end
  else if teq arg (str "/dev/null") then Val FNull
  else match after_last 46 arg with
       | None => Val FObj
       | Some ext =>
         Val (if teq ext (str "s") then FAsm
              else match ext with
                   | [83] | [83; _; 120] => FAsmCpp
                   | _ => if existsb (teq ext) srcexts then FSrc else FObj
                   end)
       end.

(* The arguments of qsort and bsearch for the arguments to be removed: 307-313, 567-573, 585-590.
   qsort is given strcmp, which is called with pointers to the elements: it compares the bytes of the pointers.
   Simplified: qsort is a stable sort (glibc's is a merge sort). *)
Fixpoint upto0 (bs : list Z) : list Z := match bs with [] => [] | b :: r => if b =? 0 then [] else b :: upto0 r end.
Definition ptr_cmp (a b : Z) : Z := strcmp (upto0 (le_bytes 8 a)) (upto0 (le_bytes 8 b)).
Fixpoint insert (x : Z * text) (l : list (Z * text)) : list (Z * text) :=
  match l with
  | [] => [x]
  | y :: r => if ptr_cmp (fst x) (fst y) <=? 0 then x :: l else y :: insert x r
  end.
Definition qsort (l : list (Z * text)) : list (Z * text) := fold_right insert [] l.

(* glibc's bsearch with bsearch_strcmp. *)
Fixpoint bsearch (fuel : nat) (key : text) (l : list text) (lo hi : nat) : bool :=
  match fuel with
  | O => false
  | S f =>
    if Nat.ltb lo hi then
      let mid := Nat.div2 (lo + hi) in
      match nth_error l mid with
      | None => false
      | Some t => let c := strcmp key t in
                  if c <? 0 then bsearch f key l lo mid
                  else if 0 <? c then bsearch f key l (S mid) hi else true
      end
    else false
  end.
Definition removable (rm : list text) (a : text) : bool := bsearch (S (length rm)) a rm 0 (length rm).

(* What the loop over the arguments in init (351-421) finds out.  A mark for each argument: it is an input file, it is
   cleared (-o and its argument), or it is kept. *)
Inductive mark := Keep | Input | Clear.
Record scan := { sc_ninput : nat; sc_input : nat; sc_action : action; sc_act : nat; sc_lang : nat;
                 sc_out : option text }.

Definition scan0 (a : action) : scan :=
  {| sc_ninput := 0; sc_input := 0; sc_action := a; sc_act := 0; sc_lang := 0; sc_out := None |}.
Definition set_action (a : action) (s : scan) : scan :=
  {| sc_ninput := sc_ninput s; sc_input := sc_input s; sc_action := a; sc_act := sc_act s; sc_lang := sc_lang s;
     sc_out := sc_out s |}.
Definition set_act (a : action) (i : nat) (s : scan) : scan :=
  {| sc_ninput := sc_ninput s; sc_input := sc_input s; sc_action := a; sc_act := i; sc_lang := sc_lang s;
     sc_out := sc_out s |}.
Definition set_lang (i : nat) (s : scan) : scan :=
  {| sc_ninput := sc_ninput s; sc_input := sc_input s; sc_action := sc_action s; sc_act := sc_act s; sc_lang := i;
     sc_out := sc_out s |}.
Definition set_out (o : option text) (s : scan) : scan :=
  {| sc_ninput := sc_ninput s; sc_input := sc_input s; sc_action := sc_action s; sc_act := sc_act s; sc_lang := sc_lang s;
     sc_out := o |}.
Definition add_input (i : nat) (s : scan) : scan :=
  {| sc_ninput := S (sc_ninput s); sc_input := i; sc_action := sc_action s; sc_act := sc_act s; sc_lang := sc_lang s;
     sc_out := sc_out s |}.

(* What one argument means: the switch of 354-420.  The second component says whether the next argument is skipped. *)
Definition lone (r : text) : bool := match r with [] => true | _ => false end.
Definition word (i : nat) (a : text) (s : scan) : scan * bool * mark :=
  match a with
  | 45 :: [] => (add_input i s, false, Input)
  | 45 :: c :: r =>
    if c =? 73 then (s, lone r, Keep)                                             (* -I *)
    else if c =? 120 then (set_lang (if lone r then S i else i) s, lone r, Keep)  (* -x *)
    else if c =? 99 then (set_act ACompile i s, false, Keep)                      (* -c *)
    else if c =? 83 then (set_act AGen i s, false, Keep)                          (* -S *)
    else if c =? 69 then (set_action ACpp s, false, Keep)                         (* -E *)
    else if c =? 111 then (if lone r then s else set_out (Some r) s, lone r, Clear)   (* -o *)
    else if c =? 77 then (s, match r with x :: _ => (x =? 70) || (x =? 84) || (x =? 81) | [] => false end, Keep)  (* -M *)
    else if c =? 105 then (s, teq r (str "nclude") || teq r (str "system") || teq r (str "quote"), Keep)          (* -i *)
    else if (c =? 101) || (c =? 84) then (s, true, Keep)                          (* -e, -T *)
    else if c =? 45 then (if teq r (str "version") then set_action AVersion s else s, false, Keep)                (* -- *)
    else (s, false, Keep)
  | _ => (add_input i s, false, Input)
  end.
Definition is_o (a : text) : bool := teq a (str "-o").

Fixpoint scan_args (i : nat) (l : list text) (s : scan) : scan * list mark :=
  match l with
  | [] => (s, [])
  | a :: l' =>
    let '(s1, skip, m) := word i a s in
    if skip then
      match l' with
      | [] => (if is_o a then set_out None s1 else s1, [m])
      | b :: l'' =>
        let s2 := if is_o a then set_out (Some b) s1 else s1 in
        let (s3, ms) := scan_args (S (S i)) l'' s2 in
        (s3, m :: (if is_o a then Clear else Keep) :: ms)
      end
    else let (s3, ms) := scan_args (S i) l' s1 in (s3, m :: ms)
  end.

(* basename (libgen.h) for 445; only for names that do not end with a slash.  The last character is replaced: 456. *)
Definition base_of (p : text) : text := match after_last 47 p with Some b => b | None => p end.
Definition default_out (a : action) (p : text) : text :=
  let b := base_of p in
  firstn (length b - 1) b ++ [match a with ACompile => 111 | _ => 115 end].

(* The environment. *)
Definition env := text -> option text.
Definition or_else (o : option text) (d : text) : text := match o with Some t => t | None => d end.

(* What init leaves behind: the configuration of the wrapper and the parsed command line. *)
Record conf := {
  k_stage : stage; k_stagename : text; k_real : text; k_path : text;
  k_remove : list text; k_append : list text; k_dbg : list text; k_patch : list text; k_asm : bool;
  k_prefix : text; k_asmdir : option text }.
Record cmdl := {
  l_action : action; l_argv : list (option text); l_argc : nat;         (* argv with all slots that were allocated *)
  l_inputs : option (list (option text)); l_ninputs : nat;                (* input_files and ninput_files *)
  l_input : nat; l_act : nat; l_lang : nat; l_out : option text }.

Definition stage_of (s : text) : option stage :=
  if teq s (str "original") then Some Original
  else if teq s (str "patched") then Some Patched
  else if teq s (str "configure") then Some Configure else None.

Definition env_list (e : env) (v : text) (default : list text) : out (list text) :=
  match e v with
  | None => Val default
  | Some s => match split_args s with Val l => Val (map snd l) | Exit rc => Exit rc | Bad => Bad end
  end.
(* The arguments to be removed, in the order qsort leaves them; addr is the address of the variable in the environment. *)
Definition env_remove (e : env) (addr : Z) : out (list text) :=
  match e (str "KPCC_REMOVE_ARGS") with
  | None => Val [str "-g"]
  | Some s => match split_args s with
              | Val l => Val (map snd (qsort (map (fun x => (addr + Z.of_nat (fst x), snd x)) l)))
              | Exit rc => Exit rc | Bad => Bad
              end
  end.

Definition obind {A B} (x : out A) (f : A -> out B) : out B :=
  match x with Val a => f a | Exit rc => Exit rc | Bad => Bad end.
Notation "'let!' x <- a ; b" := (obind a (fun x => b)) (at level 200, x name, a at level 100, b at level 200).

Definition real_of (prog : text) (e : env) : text :=
  if teq prog (str "g++") || teq prog (str "c++") || teq prog (str "kpcc++")
  then or_else (e (str "KPCXXREAL")) (str "/usr/bin/g++")
  else or_else (e (str "KPCCREAL")) (str "/usr/bin/gcc").

(* init, 254-302: what is known before the arguments are parsed. *)
Definition looks_configure (args : list text) : bool :=
  existsb (fun a => contains a (str "conftest.") || contains a (str "qemu-conf")) args.

(* init, 304-344: the rest of the environment. *)
Definition init_conf (prog : text) (args : list text) (e : env) (addr : Z) : out conf :=
  match e (str "KPATCH_PATH") with
  | None => Exit 129
  | Some path =>
    match e (str "KPATCH_STAGE") with
    | None => Exit 129
    | Some sn =>
      match stage_of sn with
      | None => Exit 129
      | Some st =>
        let st := if looks_configure (prog :: args) then Configure else st in
        match st with
        | Configure =>
          Val {| k_stage := Configure; k_stagename := sn; k_real := real_of prog e; k_path := path; k_remove := [];
                 k_append := []; k_dbg := []; k_patch := []; k_asm := false; k_prefix := []; k_asmdir := None |}
        | _ =>
          let! rm <- env_remove e addr;
          let! ap <- env_list e (str "KPCC_APPEND_ARGS") [];
          let! db <- env_list e (str "KPCC_DBGFILTER_ARGS")
                       [str "--dbg-filter"; str "--dbg-filter-eh-frame"; str "--dbg-filter-gcc-except-table";
                        str "--os=rhel6"];
          let! pa <- env_list e (str "KPCC_PATCH_ARGS") [str "--force-gotpcrel"; str "--os=rhel6"];
          Val {| k_stage := st; k_stagename := sn; k_real := real_of prog e; k_path := path; k_remove := rm;
                 k_append := ap; k_dbg := db; k_patch := pa;
                 k_asm := match e (str "KPATCH_GENSRC_ASM") with Some _ => true | None => false end;
                 k_prefix := or_else (e (str "KPATCH_PREFIX")) (str ".kpatch_");
                 k_asmdir := e (str "KPATCH_ASM_DIR") |}
        end
      end
    end
  end.

(* init, 332-341 and 346-497: the command line.  A passed-through command line keeps its arguments. *)
Definition apply_mark (m : mark) (a : text) : option text := match m with Clear => None | _ => Some a end.
Definition input_mark (m : mark) (a : text) : option text := match m with Input => Some a | _ => None end.
Fixpoint zip_marks {A} (f : mark -> text -> A) (ms : list mark) (l : list text) : list A :=
  match ms, l with m :: ms', a :: l' => f m a :: zip_marks f ms' l' | _, _ => [] end.

Definition passed (k : conf) (args : list text) : cmdl :=
  {| l_action := APass; l_argv := Some (k_real k) :: map Some args ++ [None]; l_argc := S (length args);
     l_inputs := None; l_ninputs := 0; l_input := 0; l_act := 0; l_lang := 0; l_out := None |}.

(* 423-432: what the options together mean. *)
Definition decide (a : action) (ninput : nat) : action :=
  match a with
  | ACompile | AGen => if Nat.ltb 1 ninput then APass else a
  | APass => if Nat.ltb 0 ninput then AMulti else APass
  | AError | AVersion | AShowV | ACpp => APass
  | a => a
  end.
(* 443-458: the output file, when it is not given, from the input file. *)
Definition out_file (a : action) (o : option text) (f : option text) : option text :=
  match a, o with
  | ACompile, None | AGen, None =>
    match f with Some f => if teq f dash then None else Some (default_out a f) | None => None end
  | _, _ => o
  end.
(* 461-467. *)
Definition pass_null (o : option text) (a : action) : action :=
  match o with None => APass | Some o => if teq o (str "/dev/null") then APass else a end.
(* 469-488. *)
Definition by_type (asm : bool) (a : action) (t : ftype) : action :=
  match a, t with
  | ACompile, FAsm => if asm then AAsm else APass
  | ACompile, FAsmCpp => if asm then AAsmCpp else APass
  | ACompile, FNull => APass
  | _, _ => a
  end.

Definition typed (asm : bool) (inp lang : option text) (a : action) : out action :=
  match a with
  | ACompile =>
    match inp with
    | None => Bad
    | Some f => let! t <- get_file_type lang f; Val (by_type asm a t)
    end
  | a => Val a
  end.

Definition init_args (k : conf) (args : list text) : out cmdl :=
  match k_stage k with
  | Configure => Val (passed k args)
  | _ =>
    let a0 := match args with [a] => if teq a (str "-v") then AShowV else APass | _ => APass end in
    let sm := scan_args 1 args (scan0 a0) in
    let s := fst sm in
    let ms := snd sm in
    let argv := Some (k_real k) :: zip_marks apply_mark ms args ++ [None] ++ repeat None (length (k_append k) + 2) in
    let ins := None :: zip_marks input_mark ms args in
    let a3 := decide (sc_action s) (sc_ninput s) in
    (* without an input file the index is 0, argv[0] *)
    let o := out_file a3 (sc_out s) (nth (sc_input s) argv None) in
    let a4 := pass_null o a3 in
    let! a6 <- typed (k_asm k) (nth (sc_input s) argv None) (nth (sc_lang s) argv None) a4;
    match a6 with
    | APass => Val (passed k args)
    | _ =>
      Val {| l_action := a6; l_argv := argv; l_argc := S (length args);
             l_inputs := match a3 with AMulti => Some ins | _ => None end;
             l_ninputs := sc_ninput s; l_input := sc_input s; l_act := sc_act s; l_lang := sc_lang s; l_out := o |}
    end
  end.

(* Arrays: writing outside is undefined. *)
Fixpoint put {A} (l : list A) (i : nat) (x : A) : option (list A) :=
  match l, i with
  | [], _ => None
  | _ :: r, O => Some (x :: r)
  | y :: r, S i' => match put r i' x with Some r' => Some (y :: r') | None => None end
  end.
Definition aput (l : list (option text)) (i : nat) (x : option text) : M (list (option text)) :=
  match put l i x with Some l' => ret l' | None => bad end.
Definition aget (l : list (option text)) (i : nat) : M (option text) :=
  match nth_error l i with Some x => ret x | None => bad end.

(* modify_args: 575-633.  First loop: clear what is to be removed; second loop: close the gaps, moving the input files
   and the remembered positions along; then the appended arguments and the end. *)
Definition is_option (a : text) : bool := match a with 45 :: _ :: _ => true | _ => false end.
Definition cleared (rm : list text) (x : option text) : option text :=
  match x with
  | Some a => if is_option a && removable rm a then None else Some a
  | None => None
  end.

Record moved := { mv_argv : list (option text); mv_ins : option (list (option text));
                  mv_act : nat; mv_input : nat; mv_lang : nat }.
Fixpoint close_gaps (n : nat) (i j : nat) (m : moved) : M (nat * moved) :=
  match n with
  | O => ret (i, m)
  | S n' =>
    get x <- aget (mv_argv m) j;
    match x with
    | None => close_gaps n' i (S j) m
    | Some _ =>
      if Nat.eqb i j then close_gaps n' (S i) (S j) m
      else
        get argv <- aput (mv_argv m) i x;
        get ins <- match mv_ins m with
                   | None => ret None
                   | Some l => get f <- aget l j; get l1 <- aput l i f; get l2 <- aput l1 j None; ret (Some l2)
                   end;
        close_gaps n' (S i) (S j)
          {| mv_argv := argv; mv_ins := ins;
             mv_act := if Nat.eqb (mv_act m) j then i else mv_act m;
             mv_input := if Nat.eqb (mv_input m) j then i else mv_input m;
             mv_lang := if Nat.eqb (mv_lang m) j then i else mv_lang m |}
    end
  end.

Fixpoint aputs (l : list (option text)) (i : nat) (xs : list text) : M (list (option text)) :=
  match xs with [] => ret l | x :: r => get l1 <- aput l i (Some x); aputs l1 (S i) r end.

Definition modify_args (k : conf) (c : cmdl) : M cmdl :=
  let argv := match l_argv c with [] => [] | a :: r => a :: map (cleared (k_remove k)) r end in
  get r <- close_gaps (l_argc c - 1) 1 1
             {| mv_argv := argv; mv_ins := l_inputs c; mv_act := l_act c; mv_input := l_input c; mv_lang := l_lang c |};
  let (n, m) := r in
  get a1 <- aput (mv_argv m) n None;
  get a2 <- aputs a1 n (k_append k);
  let n' := (n + length (k_append k))%nat in
  get a3 <- aput a2 (n' + 2) None;
  get a4 <- aput a3 (n' + 1) None;
  get a5 <- aput a4 n' None;
  ret {| l_action := l_action c; l_argv := a5; l_argc := n'; l_inputs := mv_ins m; l_ninputs := l_ninputs c;
         l_input := mv_input m; l_act := mv_act m; l_lang := mv_lang m; l_out := l_out c |}.

Section Wrapper.
Variable w : world.
Variable realpath : text -> option text.         (* realpath(3); simplified: it answers the same all the time *)
Variable k : conf.

Definition ask (e : ev) : M Z := fun h => let r := w h e in (Val r, (e, r) :: h).

(* The arguments up to the terminating NULL. *)
Fixpoint cargs (l : list (option text)) : list text :=
  match l with Some a :: r => a :: cargs r | _ => [] end.

(* run_cmd: 635-661; WEXITSTATUS of the status, fatal when waitpid fails. *)
Definition wexit (status : Z) : Z := Z.land (Z.shiftr status 8) 255.
Definition run_cmd (args : list text) (path : option text) : M Z :=
  get st <- ask (Run (match path with Some p => p | None => hd [] args end) args);
  if st <? 0 then exit 129 else ret (wexit st).

(* run_gensrc: 663-673. *)
Definition run_gensrc (args : list text) : M Z := run_cmd (str "kpatch_gensrc" :: args) (Some (k_path k ++ str "/kpatch_gensrc")).

(* rename, with its result: 0 or -1. *)
Definition rename (a b : text) : M Z := get r <- ask (Rename a b); ret (if r =? 0 then 0 else -1).

(* do_dbgfilter: 675-710. *)
Definition do_dbgfilter (aspath : text) : M Z :=
  match k_dbg k with
  | [] => ret 0
  | _ =>
    let tmp := aspath ++ str ".tmp" in
    get rv <- run_gensrc (k_dbg k ++ [str "-i"; aspath; str "-o"; tmp]);
    if rv =? 0 then rename tmp aspath else ret rv
  end.

(* do_generate_kpatch: 712-783.  The last ten characters of the name, ".patched.s", are replaced. *)
Definition stem (aspath : text) : text := firstn (length aspath - 10) aspath.
Definition generate_pair (aspath orig : text) : M (Z * text) :=
  get rv2 <- do_dbgfilter aspath;
  if negb (rv2 =? 0) then ret (rv2, aspath)
  else
    let tmp := stem aspath ++ str ".s.tmp" in
    get rv3 <- run_gensrc (k_patch k ++ [str "-i"; orig; str "-i"; aspath; str "-o"; tmp]);
    if negb (rv3 =? 0) then ret (rv3, aspath)
    else
      let as' := stem aspath ++ str ".s" in
      get rv4 <- rename tmp as';
      ret (rv4, as').
Definition do_generate_kpatch (aspath : text) : M (Z * text) :=
  let origname := stem aspath ++ str ".original.s" in
  get ac <- ask (Access origname);
  get r1 <- (if ac =? 0 then get rv <- do_dbgfilter origname; ret (rv, origname)
             else if ac =? 2 then ret (0, str "/dev/null") else exit 129);
  if negb (fst r1 =? 0) then ret (fst r1, aspath) else generate_pair aspath (snd r1).

(* basename and dirname (libgen.h) as used in get_assembler_filename, 1098-1102, both on the same buffer.  A name without
   a slash is its own basename and its directory is ".".  glibc's dirname cuts the buffer behind the directory; for a file
   in the root directory that is the first character of the basename.  Only for names that do not end with a slash. *)
Fixpoint split_last (c : Z) (s : text) : option (text * text) :=
  match s with
  | [] => None
  | x :: s' => match split_last c s' with
               | Some (a, b) => Some (x :: a, b)
               | None => if x =? c then Some ([], s') else None
               end
  end.
Fixpoint strip_front (s : text) : text := match s with 47 :: r => strip_front r | _ => s end.
Definition strip_slashes (d : text) : text := rev (strip_front (rev d)).
Definition names (p : text) : text * text :=                     (* directory and basename *)
  match split_last 47 p with
  | None => (str ".", p)
  | Some (d, b) =>
    match strip_slashes d with
    | [] => match d with
            | [] => (str "/", [])
            | [_] => (str "//", [])
            | _ => (str "/", b)
            end
    | d' => (d', b)
    end
  end.

(* make_dirs: 1064-1081; all directories on the way, the first character is skipped. *)
Fixpoint dirs_from (done rest : text) : list text :=
  match rest with
  | [] => []
  | c :: r => if c =? 47 then done :: dirs_from (done ++ [c]) r else dirs_from (done ++ [c]) r
  end.
Definition dirs_of (p : text) : list text := match p with [] => [] | c :: r => dirs_from [c] r end.
Fixpoint make_dirs (l : list text) : M unit :=
  match l with
  | [] => ret tt
  | d :: r => get rv <- ask (Mkdir d); if (rv =? 0) || (rv =? 17) then make_dirs r else exit 129
  end.

(* get_assembler_filename: 1083-1123.  The output file stands in for standard input. *)
Definition path_max : nat := Z.to_nat 4096.
Definition get_assembler_filename (outfile : option text) (p : text) : M text :=
  match (if teq p dash then outfile else Some p) with
  | None => bad
  | Some p' =>
    if Nat.leb path_max (length p') then exit 129
    else
      let (d, b) := names p' in
      match k_asmdir k with
      | None =>
        let r := d ++ str "/" ++ k_prefix k ++ b ++ str "." ++ k_stagename k ++ str ".s" in
        if Nat.leb path_max (length r) then exit 129 else ret r
      | Some dir =>
        match realpath d with
        | None => exit 129
        | Some d' =>
          let r := dir ++ d' ++ str "/" ++ k_prefix k ++ b ++ str "." ++ k_stagename k ++ str ".s" in
          if Nat.leb path_max (length r) then exit 129 else get _u <- make_dirs (dirs_of r); ret r
        end
      end
  end.

Definition copy_file (a b : text) : M Z := get r <- ask (Copy a b); if r =? 0 then ret 0 else exit 129.

Definition aslang (x : option text) : option text :=
  match x with Some (45 :: _) => Some (str "-xassembler") | _ => Some (str "assembler") end.

(* compile_single: 785-847. *)
Definition compile_single (c : cmdl) : M Z :=
  match l_out c with
  | None => bad
  | Some outfile =>
    get v1 <- match l_action c with
              | AAsmCpp => aput (l_argv c) (l_act c) (Some (str "-E"))
              | AGen => ret (l_argv c)
              | _ => aput (l_argv c) (l_act c) (Some (str "-S"))
              end;
    get aspath <- get_assembler_filename (Some outfile) outfile;
    get r <- match l_action c with
             | AAsm =>
               get f <- aget v1 (l_input c);
               match f with None => bad | Some f => get rv <- copy_file f aspath; ret (rv, v1) end
             | _ =>
               get v2 <- aput v1 (l_argc c) (Some (str "-o"));
               get v3 <- aput v2 (l_argc c + 1) (Some aspath);
               get rv <- run_cmd (cargs v3) None; ret (rv, v3)
             end;
    let (rv, v) := r : Z * list (option text) in
    if negb (rv =? 0) then ret rv
    else
      get g <- match k_stage k with Patched => do_generate_kpatch aspath | _ => ret (0, aspath) end;
      let (rv1, as1) := g : Z * text in
      if negb (rv1 =? 0) then ret rv1
      else
        match l_action c with
        | AGen => copy_file as1 outfile
        | _ =>
          get u1 <- aput v (l_act c) (Some (str "-c"));
          get u2 <- aput u1 (l_input c) (Some as1);
          get u3 <- aput u2 (l_argc c) (Some (str "-o"));
          get u4 <- aput u3 (l_argc c + 1) (Some outfile);
          get u5 <- (if Nat.eqb (l_lang c) 0 then ret u4
                     else get x <- aget u4 (l_lang c); aput u4 (l_lang c) (aslang x));
          run_cmd (cargs u5) None
        end
  end.

(* build_multiple: 849-942.  First loop: the arguments that are not input files. *)
Fixpoint plain_args (n j : nat) (argv ins : list (option text)) : M (list (option text)) :=
  match n with
  | O => ret []
  | S n' =>
    get f <- aget ins j;
    get r <- (match f with Some _ => ret [] | None => get x <- aget argv j; ret [x] end);
    get rs <- plain_args n' (S j) argv ins;
    ret (r ++ rs)
  end.

(* One input file, 883-922: the file that stands for it in the last command. *)
Definition one_input (c : cmdl) (plain : list (option text)) (f : text) : M (Z * text) :=
  get aspath <- get_assembler_filename (l_out c) f;
  let cmd (what : text) := cargs (plain ++ [Some what; Some f; Some (str "-o"); Some aspath; None]) in
  get lang <- (if teq f dash then aget (l_argv c) (l_lang c) else ret None);
  match get_file_type lang f with
  | Exit rc => exit rc
  | Bad => bad
  | Val t =>
    match t, k_asm k with
    | FObj, _ | FAsm, false | FAsmCpp, false => ret (0, f)
    | _, _ =>
      get rv <- match t with
                | FAsm => copy_file f aspath
                | FAsmCpp => run_cmd (cmd (str "-E")) None
                | FSrc => run_cmd (cmd (str "-S")) None
                | _ => ret 0
                end;
      if negb (rv =? 0) then ret (rv, f)
      else match k_stage k with Patched => do_generate_kpatch aspath | _ => ret (0, aspath) end
    end
  end.

(* The loop over the input files, 877-923, and the one that puts the new names in place, 925-928. *)
Fixpoint each_input (n i : nat) (c : cmdl) (plain : list (option text)) (ins argv : list (option text))
  : M (Z * list (option text)) :=
  match n with
  | O => ret (0, argv)
  | S n' =>
    get f <- aget ins i;
    match f with
    | None => each_input n' (S i) c plain ins argv
    | Some f =>
      get r <- one_input c plain f;
      let (rv, f') := r : Z * text in
      if negb (rv =? 0) then ret (rv, argv)
      else get argv' <- aput argv i (Some f'); each_input n' (S i) c plain ins argv'
    end
  end.

Definition build_multiple (c : cmdl) : M Z :=
  match l_inputs c with
  | None => bad
  | Some ins =>
    get plain <- plain_args (l_argc c) 0 (l_argv c) ins;
    (* newargc = argc - ninput_files + 5; simplified: no wrap-around, there are never more input files than arguments *)
    if Nat.leb (l_argc c - l_ninputs c + 5) (length plain + 4) then exit 129
    else
      get r <- each_input (l_argc c - 1) 1 c plain ins (l_argv c);
      let (rv, argv) := r : Z * list (option text) in
      if negb (rv =? 0) then ret rv
      else
        get argv' <- match l_out c with
                     | None => ret argv
                     | Some o => get v1 <- aput argv (l_argc c) (Some (str "-o")); aput v1 (l_argc c + 1) (Some o)
                     end;
        run_cmd (cargs argv') None
  end.

(* emulate_cc: 944-976.  An execv that returns gives 129. *)
Definition emulate_cc (c : cmdl) : M Z :=
  match l_action c with
  | APass => get _r <- ask (Exec (k_real k) (cargs (l_argv c))); ret 129
  | _ =>
    get c' <- modify_args k c;
    match l_action c' with
    | ACompile | AAsm | AAsmCpp | AGen => compile_single c'
    | AMulti => build_multiple c'
    | _ => ret 129
    end
  end.
End Wrapper.

(* main: 978-988. *)
Definition kpcc (w : world) (realpath : text -> option text) (e : env) (addr : Z) (prog : text) (args : list text)
  : out Z * hist :=
  match obind (init_conf prog args e addr) (fun k => obind (init_args k args) (fun c => Val (k, c))) with
  | Exit rc => (Exit rc, [])
  | Bad => (Bad, [])
  | Val (k, c) => emulate_cc w realpath k c []
  end.
