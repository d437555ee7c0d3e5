(** How the options of kpatch_gensrc are written, what they ask for, and what the files hold after the wrapper's steps. *)
From Coq Require Import String.
From Verif Require Import Base StorageModel CcModel CcSpec TextModel DbgModel GenModel GenMainModel.
Open Scope list_scope.

(** The ways to write an option with an argument: in the next word or joined.  An argument joined to the letter is not empty. *)
Definition written_arg (letter : option string) (name : string) (v : text) (ws : list text) : Prop :=
  (exists l, letter = Some l /\ (ws = [str l; v] \/ (v <> [] /\ ws = [str l ++ v]))) \/ ws = [str name; v] \/ ws = [str name ++ str "=" ++ v].
Definition says (o : opt) (ws : list text) : Prop :=
  match o with
  | ODebug v => written_arg (Some "-d"%string) "--debug" v ws
  | OOs v => written_arg (Some "-O"%string) "--os" v ws
  | OArch v => written_arg (Some "-a"%string) "--arch" v ws
  | OIn v => written_arg (Some "-i"%string) "--input" v ws
  | OOut v => written_arg (Some "-o"%string) "--ouput" v ws
  | OFilter => ws = [str "-f"] \/ ws = [str "--dbg-filter"]
  | OTest => ws = [str "--test-mode"]
  | OEh => ws = [str "--dbg-filter-eh-frame"]
  | OExcept => ws = [str "--dbg-filter-gcc-except-table"]
  | OCfi => ws = [str "--dbg-filter-cfi"]
  | ONewlines => ws = [str "--dbg-filter-emit-newlines"]
  | OIgnore v => written_arg None "--ignore-changes" v ws
  | OUnlink v => written_arg None "--unlink-symbols" v ws
  | OAdapt v => written_arg None "--must-adapt" v ws
  | OGot => ws = [str "--force-gotpcrel"]
  | OGlobal => ws = [str "--force-global"]
  | OBad => False
  end.
(** The names of the long options, and shorter ways to write them *)
Definition names : list text := map str ["debug"; "os"; "arch"; "input"; "ouput"; "test-mode"; "dbg-filter"; "dbg-filter-eh-frame"; "dbg-filter-gcc-except-table"; "dbg-filter-cfi";
  "dbg-filter-emit-newlines"; "ignore-changes"; "unlink-symbols"; "must-adapt"; "force-gotpcrel"; "force-global"]%string.
Definition shortens (n m : text) : Prop := exists r, m = n ++ r.
(** What all options together ask for *)
Definition ins_of (os : list opt) : list text := flat_map (fun o => match o with OIn f => [f] | _ => [] end) os.
Definition outs_of (os : list opt) : list text := flat_map (fun o => match o with OOut f => [f] | _ => [] end) os.
Definition asks (p : opt -> bool) (os : list opt) : bool := existsb p os.
Definition filtering := asks (fun o => match o with OFilter => true | _ => false end).
Definition dopts_of (os : list opt) : dopts :=
  {| do_eh := asks (fun o => match o with OEh => true | _ => false end) os; do_except := asks (fun o => match o with OExcept => true | _ => false end) os;
     do_cfi := asks (fun o => match o with OCfi => true | _ => false end) os; do_newlines := asks (fun o => match o with ONewlines => true | _ => false end) os |}.
(** The last one given counts, if it is known *)
Definition rhel5_of (os : list opt) : bool :=
  last (flat_map (fun o => match o with OOs v => if list_eqb v (str "rhel5") then [true] else if list_eqb v (str "rhel6") then [false] else [] | _ => [] end) os) false.
Definition bits32_of (os : list opt) : bool :=
  last (flat_map (fun o => match o with OArch v => if list_eqb v (str "i686") then [true] else if list_eqb v (str "x86_64") then [false] else [] | _ => [] end) os) false.
(** The lists add up *)
Definition list_of (p : opt -> list text) (os : list opt) : symlist := flat_map (fun v => map sym_desc (strtok 44 v)) (flat_map p os).
Definition ignore_of := list_of (fun o => match o with OIgnore v => [v] | _ => [] end).
Definition unlink_of := list_of (fun o => match o with OUnlink v => [v] | _ => [] end).
Definition adapt_of := list_of (fun o => match o with OAdapt v => [v] | _ => [] end).
Definition lists_fit (os : list opt) : Prop := (length (ignore_of os) <= 32)%nat /\ (length (unlink_of os) <= 32)%nat /\ (length (adapt_of os) <= 32)%nat.
Definition gopts_of (e : genv) (os : list opt) : gopts :=
  {| go_rhel5 := rhel5_of os; go_32 := bits32_of os; go_ignore := ignore_of os; go_unlink := unlink_of os; go_adapt := adapt_of os;
     go_conf := if asks (fun o => match o with OTest => true | _ => false end) os then None else e_conf e;
     go_got := asks (fun o => match o with OGot => true | _ => false end) os; go_global := asks (fun o => match o with OGlobal => true | _ => false end) os;
     go_shift := e_shift e; go_junk := e_junk e |}.
(** A file as an input *)
Definition input_of (e : genv) (f c : text) : input := {| in_dir := fst (e_real e f); in_base := snd (e_real e f); in_content := c |}.
(** A file that can be read, and what is in it *)
Definition readable (e : genv) (fs : files) (f c : text) : Prop := f <> str "-" /\ e_read e f = true /\ fs f = Some c.
Definition makeable (e : genv) (o : text) : Prop := o <> str "-" /\ e_write e o = true.
(** All other files are as they were. *)
Definition only (l : list text) (fs fs' : files) : Prop := forall n, ~ In n l -> fs' n = fs n.

(** ** The steps of the wrapper on files *)
Definition gensrc_path (k : conf) : text := k_path k ++ str "/kpatch_gensrc".
(** One event with its answer.  kpatch_gensrc is the program of GenMainModel, or a signal ends it at any point; other
    programs and copying may do anything. *)
Inductive does (e : genv) (k : conf) : ev * Z -> files -> files -> Prop :=
| DAccess f fs : does e k (Access f, match fs f with Some _ => 0 | None => 2 end) fs fs
| DRename a b t fs : fs a = Some t -> does e k (Rename a b, 0) fs (fput (fput fs a None) b (Some t))
| DRenameFails a b r fs : r <> 0 -> does e k (Rename a b, r) fs fs
| DGensrc args c fs fs' : gmain e fs args = (GExit c, fs') -> does e k (Run (gensrc_path k) (str "kpatch_gensrc" :: args), 256 * c) fs fs'
| DKilled args n fs fs' : only (outs_of (fst (scan args))) fs fs' -> 0 < n < 256 -> does e k (Run (gensrc_path k) (str "kpatch_gensrc" :: args), n) fs fs'
| DRun p args r fs fs' : p <> gensrc_path k -> does e k (Run p args, r) fs fs'
| DMkdir d r fs : does e k (Mkdir d, r) fs fs
| DOther ev r fs fs' : (match ev with Exec _ _ | Copy _ _ => True | _ => False end) -> does e k (ev, r) fs fs'.
Inductive did (e : genv) (k : conf) : list (ev * Z) -> files -> files -> Prop :=
| DNil fs : did e k [] fs fs
| DCons x l fs fs1 fs2 : does e k x fs fs1 -> did e k l fs1 fs2 -> did e k (x :: l) fs fs2.
(** No program was ended by a signal: the low bits of what wait says. *)
Definition whole (x : ev * Z) : Prop := match x with (Run _ _, r) => Z.land r 255 = 0 | _ => True end.
(** The options the wrapper is told to hand over: any, but no files. *)
Definition wants (ws : list text) (os : list opt) : Prop := exists wss, Forall2 says os wss /\ ws = concat wss /\ ins_of os = [] /\ outs_of os = [].
(** What the patched stage has to leave: the source of the patch, made from both files without debugging information. *)
Record patch_made (e : genv) (dos pos : list opt) (base : text) (found : bool) (fs fs' : files) : Prop := {
  pm_new : exists cn fn, fs (base ++ str ".patched.s") = Some cn /\ fs' (base ++ str ".patched.s") = Some fn /\
    dbg_filter (e_arch e) (dopts_of dos) (e_buf e) (input_of e (base ++ str ".patched.s") cn) = Ok fn /\
    exists f fo t, fs' (base ++ str ".s") = Some t /\ fs' f = Some fo /\
      GenModel.gensrc (e_arch e) (gopts_of e pos) (e_buf e) (input_of e f fo) (input_of e (base ++ str ".patched.s") fn) = Ok t /\
      (if found then f = base ++ str ".original.s" /\ exists co, fs f = Some co /\ dbg_filter (e_arch e) (dopts_of dos) (e_buf e) (input_of e f co) = Ok fo
       else f = str "/dev/null" /\ fs (base ++ str ".original.s") = None /\ fs' (base ++ str ".original.s") = None);
  pm_only : only [base ++ str ".original.s"; base ++ str ".patched.s"; base ++ str ".s"; base ++ str ".original.s.tmp"; base ++ str ".patched.s.tmp"; base ++ str ".s.tmp"] fs fs' }.
