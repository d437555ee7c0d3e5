(* Specification of the compiler wrapper: command lines as a user of gcc writes them, and what the wrapper has to run. *)
From Coq Require Import ZArith List Bool String Sorted.
From Verif Require Import Base BaseProofs StorageModel TextModel CcModel.
Import ListNotations.
Open Scope Z_scope.
Open Scope list_scope.

(* The words of a command line of gcc: options of one word, options with an argument, input files, the output file,
   -c or -S, the language. *)
Inductive wd :=
| WFlag (t : text) | WTwo (t v : text) | WIn (f : text) | WOut1 (o : text) | WOut2 (o : text)
| WAct (c : bool) | WLang1 (l : text) | WLang2 (l : text).

Definition act_word (c : bool) : text := if c then str "-c" else str "-S".
Definition spell (x : wd) : list text :=
  match x with
  | WFlag t => [t] | WTwo t v => [t; v] | WIn f => [f] | WOut1 o => [str "-o" ++ o] | WOut2 o => [str "-o"; o]
  | WAct c => [act_word c] | WLang1 l => [str "-x" ++ l] | WLang2 l => [str "-x"; l]
  end.
Definition spell_all (ws : list wd) : list text := flat_map spell ws.

Definition two_word : list text :=
  [str "-I"; str "-MF"; str "-MT"; str "-MQ"; str "-include"; str "-isystem"; str "-iquote"; str "-e"; str "-T"].
(* An option of one word that selects neither files, language nor what is done. *)
Definition plain_flag (t : text) : Prop :=
  exists c r, t = 45 :: c :: r /\ ~ In c (str "xcSEoeT") /\ ~ In t two_word /\ t <> str "--version" /\
    (forall x r', t = str "-M" ++ x :: r' -> ~ In x (str "FTQ")).
Definition wd_ok (x : wd) : Prop :=
  match x with
  | WFlag t => plain_flag t
  | WTwo t _ => In t two_word
  | WIn f => f = str "-" \/ hd 0 f <> 45
  | WOut1 o => o <> []
  | WOut2 _ | WAct _ => True
  | WLang1 l => l <> []
  | WLang2 l => hd 0 l <> 45
  end.

Definition ins (ws : list wd) : list text := flat_map (fun x => match x with WIn f => [f] | _ => [] end) ws.
Definition outs (ws : list wd) : list text := flat_map (fun x => match x with WOut1 o | WOut2 o => [o] | _ => [] end) ws.
Definition acts (ws : list wd) : list bool := flat_map (fun x => match x with WAct c => [c] | _ => [] end) ws.
Definition langs (ws : list wd) : list text :=
  flat_map (fun x => match x with WLang1 l => [l] | WLang2 l => [l] | _ => [] end) ws.

(* The words the real compiler is given, with their role. *)
Inductive tag := TAct | TIn | TLang | TPlain.
Definition tagged (x : wd) : list (tag * text) :=
  match x with
  | WFlag t => [(TPlain, t)] | WTwo t v => [(TPlain, t); (TPlain, v)] | WIn f => [(TIn, f)] | WOut1 _ | WOut2 _ => []
  | WAct c => [(TAct, act_word c)] | WLang1 l => [(TLang, str "-x" ++ l)] | WLang2 l => [(TPlain, str "-x"); (TLang, l)]
  end.
Definition optionb (t : text) : bool := match t with 45 :: _ :: _ => true | _ => false end.
Definition dropped (k : conf) (t : text) : bool := optionb t && existsb (list_eqb t) (k_remove k).
Definition line (k : conf) (ws : list wd) : list (tag * text) :=
  filter (fun x => negb (dropped k (snd x))) (flat_map tagged ws).

(* The roles filled in. *)
Definition fill (act : text) (inp : option text) (lang : bool) (x : tag * text) : text :=
  match fst x with
  | TAct => act
  | TIn => match inp with Some f => f | None => snd x end
  | TLang => if lang then (if optionb (snd x) then str "-xassembler" else str "assembler") else snd x
  | TPlain => snd x
  end.
Definition command (k : conf) (ws : list wd) (act : text) (inp : option text) (lang : bool) (o : text) : list text :=
  k_real k :: map (fill act inp lang) (line k ws) ++ k_append k ++ [str "-o"; o].

(* Sorted as strcmp sorts, all words without NUL. *)
Definition sorted_words (l : list text) : Prop := StronglySorted (fun a b => strcmp a b <= 0) l.

(* Kinds of files by their names. *)
Definition is_source (f : text) : Prop :=
  exists n x, f = n ++ str "." ++ x /\ In x [str "c"; str "cp"; str "cpp"; str "cxx"; str "c++"; str "C"; str "CPP"].
Definition is_asm (f : text) : Prop := exists n, f = n ++ str ".s".
Definition is_asm_cpp (f : text) : Prop := exists n, f = n ++ str ".S".
(* An object, an archive, a library. *)
Definition is_object (f : text) : Prop :=
  exists n x, f = n ++ str "." ++ x /\ In x [str "o"; str "a"; str "so"; str "lo"; str "la"].

(* A file in a directory. *)
Definition in_dir (p d b : text) : Prop :=
  b <> [] /\ ~ In 47 b /\ (p = b /\ d = str "." \/ p = d ++ str "/" ++ b /\ d <> [] /\ last d 0 <> 47).

(* The directories on the way to a file, the shortest first. *)
Definition parents (p : text) : list text :=
  map (fun n => firstn n p) (filter (fun n => nth n p 0 =? 47) (seq 1 (length p - 1))).

(* The name of the assembler files for an output or source file, without stage and suffix. *)
Definition asm_base (k : conf) (realpath : text -> option text) (d b : text) : option text :=
  match k_asmdir k with
  | None => Some (d ++ str "/" ++ k_prefix k ++ b)
  | Some dir => match realpath d with Some d' => Some (dir ++ d' ++ str "/" ++ k_prefix k ++ b) | None => None end
  end.
Definition asm_file (k : conf) (base : text) : text := base ++ str "." ++ k_stagename k ++ str ".s".
Definition dir_steps (k : conf) (base : text) : list ev :=
  match k_asmdir k with None => [] | Some _ => map Mkdir (parents (asm_file k base)) end.

(* Running kpatch_gensrc: as the filter of debugging information on a file, and on a pair of files. *)
Definition gensrc (k : conf) (args : list text) : ev := Run (k_path k ++ str "/kpatch_gensrc") (str "kpatch_gensrc" :: args).
Definition filter_steps (k : conf) (f : text) : list ev :=
  match k_dbg k with
  | [] => []
  | _ => [gensrc k (k_dbg k ++ [str "-i"; f; str "-o"; f ++ str ".tmp"]); Rename (f ++ str ".tmp") f]
  end.
Definition patch_steps (k : conf) (base : text) (found : bool) : list ev :=
  let orig := base ++ str ".original.s" in
  let new := base ++ str ".patched.s" in
  [Access orig] ++ (if found then filter_steps k orig else []) ++ filter_steps k new ++
  [gensrc k (k_patch k ++ [str "-i"; if found then orig else str "/dev/null"; str "-i"; new; str "-o"; base ++ str ".s.tmp"]);
   Rename (base ++ str ".s.tmp") (base ++ str ".s")].
Definition stage_steps (k : conf) (base : text) (found : bool) : list ev :=
  match k_stage k with Patched => patch_steps k base found | _ => [] end.
(* The assembler file that is assembled in the end. *)
Definition ready (k : conf) (base : text) : text :=
  match k_stage k with Patched => base ++ str ".s" | _ => asm_file k base end.

(* An answer of the system that does not end the run.  For a program: it was waited for and its exit status is 0. *)
Definition fine (x : ev * Z) : Prop :=
  let (e, r) := x in
  match e with
  | Run _ _ => 0 <= r /\ Z.land (Z.shiftr r 8) 255 = 0
  | Exec _ _ => False
  | Copy _ _ | Rename _ _ => r = 0
  | Access _ => r = 0 \/ r = 2
  | Mkdir _ => r = 0 \/ r = 17
  end.
Definition trace (h : hist) : list ev := map fst (rev h).

(* The status the wrapper ends with. *)
Definition status (r : out Z) : option Z := match r with Val v => Some v | Exit v => Some v | Bad => None end.
Definition succeeds (r : out Z) : Prop := status r = Some 0.

(* The output of a compilation: given with -o, or named after the source file with a suffix of one letter. *)
Definition out_is (ws : list wd) (f : text) (s : text) (o : text) : Prop :=
  (exists l, outs ws = l ++ [o]) \/
  (outs ws = [] /\ exists d n c, f = d ++ n ++ str "." ++ [c] /\ (d = [] \/ exists d', d = d' ++ str "/") /\
     ~ In 47 n /\ c <> 47 /\ o = n ++ str "." ++ s).

(* What is compiled: a source file or the standard input, an assembler file (with KPATCH_GENSRC_ASM), one for the
   preprocessor, or a source file into an assembler file (-S). *)
Inductive kind := KSource | KAsm | KAsmCpp | KToAsm.
Definition is_kind (k : conf) (ws : list wd) (f : text) (x : kind) : Prop :=
  match x with
  | KSource => acts ws = [true] /\
      (is_source f \/ f = str "-" /\ exists l, langs ws = [l] /\ l <> str "assembler" /\ l <> str "assembler-with-cpp")
  | KAsm => acts ws = [true] /\ k_asm k = true /\ is_asm f
  | KAsmCpp => acts ws = [true] /\ k_asm k = true /\ is_asm_cpp f
  | KToAsm => acts ws = [false]
  end.
(* The step that makes the assembler file, and the one that makes the output file. *)
Definition to_asm (k : conf) (ws : list wd) (x : kind) (f asm : text) : ev :=
  match x with
  | KAsm => Copy f asm
  | KAsmCpp => Run (k_real k) (command k ws (str "-E") None false asm)
  | _ => Run (k_real k) (command k ws (str "-S") None false asm)
  end.
Definition to_output (k : conf) (ws : list wd) (x : kind) (asm o : text) : ev :=
  match x with
  | KToAsm => Copy asm o
  | _ => Run (k_real k) (command k ws (str "-c") (Some asm) true o)
  end.
Definition suffix_for (x : kind) : text := match x with KToAsm => str "s" | _ => str "o" end.
(* Words the compilation needs are not among the arguments to be removed. *)
Definition roles_kept (k : conf) (ws : list wd) : Prop :=
  dropped k (str "-c") = false /\ dropped k (str "-S") = false /\ forall l, In l (langs ws) -> dropped k (str "-x" ++ l) = false.

(* A build of a program or library from several files.  Each input file: its kind, and the name of its assembler files. *)
Inductive part_kind := PSource | PAsm | PAsmCpp | PKeep.
Record part := { p_file : text; p_kind : part_kind; p_base : text }.
Definition part_ok (k : conf) (realpath : text -> option text) (p : part) : Prop :=
  (exists d b, in_dir (p_file p) d b /\ asm_base k realpath d b = Some (p_base p)) /\
  (length (p_file p) < path_max)%nat /\ (length (asm_file k (p_base p)) < path_max)%nat /\
  match p_kind p with
  | PSource => is_source (p_file p)
  | PAsm => k_asm k = true /\ is_asm (p_file p)
  | PAsmCpp => k_asm k = true /\ is_asm_cpp (p_file p)
  | PKeep => is_object (p_file p) \/ k_asm k = false /\ (is_asm (p_file p) \/ is_asm_cpp (p_file p))
  end.
Definition is_input (x : tag * text) : bool := match fst x with TIn => true | _ => false end.
(* The command that compiles one of the files, with all options. *)
Definition part_command (k : conf) (ws : list wd) (act : text) (p : part) : list text :=
  k_real k :: map snd (filter (fun x => negb (is_input x)) (line k ws)) ++ k_append k ++
  [act; p_file p; str "-o"; asm_file k (p_base p)].
Definition part_steps (k : conf) (ws : list wd) (p : part) (found : bool) : list ev :=
  dir_steps k (p_base p) ++
  match p_kind p with
  | PKeep => []
  | PAsm => [Copy (p_file p) (asm_file k (p_base p))] ++ stage_steps k (p_base p) found
  | PAsmCpp => [Run (k_real k) (part_command k ws (str "-E") p)] ++ stage_steps k (p_base p) found
  | PSource => [Run (k_real k) (part_command k ws (str "-S") p)] ++ stage_steps k (p_base p) found
  end.
Definition part_result (k : conf) (p : part) : text :=
  match p_kind p with PKeep => p_file p | _ => ready k (p_base p) end.
(* The words of the last command: each input file replaced by what was made of it. *)
Fixpoint place (k : conf) (l : list (tag * text)) (ps : list part) : list text :=
  match l with
  | [] => []
  | x :: r => if is_input x
              then match ps with p :: ps' => part_result k p :: place k r ps' | [] => snd x :: place k r [] end
              else snd x :: place k r ps
  end.
Definition build_command (k : conf) (ws : list wd) (ps : list part) (o : text) : list text :=
  k_real k :: place k (line k ws) ps ++ k_append k ++ [str "-o"; o].
Definition build_steps (k : conf) (ws : list wd) (ps : list part) (founds : list bool) : list ev :=
  flat_map (fun x => part_steps k ws (fst x) (snd x)) (combine ps founds).
(* Whether the file of the original stage was found, as the system said. *)
Definition found_said (base : text) (found : bool) (l : list (ev * Z)) : Prop :=
  In (Access (base ++ str ".original.s"), if found then 0 else 2) l.

(* Command lines with nothing to patch: no input file and nothing to compile, a build without -o, output to /dev/null,
   -c or -S with several files, an assembler file when assembler files are not patched. *)
Definition nothing_to_patch (k : conf) (ws : list wd) : Prop :=
  (acts ws = [] /\ (ins ws = [] \/ outs ws = [])) \/
  (exists l, outs ws = l ++ [str "/dev/null"]) \/
  (exists c, acts ws = [c] /\ (2 <= length (ins ws))%nat) \/
  (acts ws = [true] /\ k_asm k = false /\ exists f, ins ws = [f] /\ (is_asm f \/ is_asm_cpp f)).

(* The real compiler. *)
Definition is_real (e : env) (prog real : text) : Prop :=
  (In prog [str "g++"; str "c++"; str "kpcc++"] /\
     (e (str "KPCXXREAL") = Some real \/ e (str "KPCXXREAL") = None /\ real = str "/usr/bin/g++")) \/
  (~ In prog [str "g++"; str "c++"; str "kpcc++"] /\
     (e (str "KPCCREAL") = Some real \/ e (str "KPCCREAL") = None /\ real = str "/usr/bin/gcc")).
Definition probing (args : list text) : Prop :=
  exists x a b, In x args /\ (x = a ++ str "conftest." ++ b \/ x = a ++ str "qemu-conf" ++ b).

(* The words of a list in the environment, between semicolons. *)
Fixpoint between (s : text) : list text :=
  match s with
  | [] => [[]]
  | c :: r => if c =? 59 then [] :: between r else match between r with x :: xs => (c :: x) :: xs | [] => [[c]] end
  end.
Definition list_words (s : text) : list text := filter (fun x => match x with [] => false | _ => true end) (between s).
Definition from_list (o : option text) (default : list text) : list text :=
  match o with Some s => list_words s | None => default end.
