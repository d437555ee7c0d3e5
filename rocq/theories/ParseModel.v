(** Sections and code blocks of an assembler file (/repo/src/kpatch_parse.c,
    arch/*/arch_parse.c).  Definitions only. *)
From Coq Require Import String.
From Verif Require Import Base StorageModel TextModel.
Open Scope list_scope.

(** ** Sections, kpatch_parse.c:563-758.
    struct section_desc, include/kpatch_parse.h:66-73, without the tree node. *)
Inductive sect := Sect (name : text) (out : option text) (exec : bool) (prev : option sect).
Definition sc_name (s : sect) : text := let (n, _, _, _) := s in n.
Definition sc_out (s : sect) : option text := let (_, o, _, _) := s in o.
Definition sc_exec (s : sect) : bool := let (_, _, e, _) := s in e.
Definition sc_prev (s : sect) : option sect := let (_, _, _, p) := s in p.

(** predefined_sections, 566-605: name, outname, executable *)
Definition predefined : list sect :=
  map (fun x => let '(n, o, e) := x in
                Sect (str n) (match o with Some z => Some (str z) | None => None end) e None)
  [(".bss", None, false); (".data", None, false); (".init.data", None, false);
   (".text", None, true); (".init.text", None, true); (".exit.text", None, true);
   (".text.unlikely", None, true); (".text.hot", None, true);
   (".fixup", Some ".kpatch.fixup,""ax"",@progbits", true);
   (".modinfo", None, false);
   ("__ex_table", Some ".kpatch.__ex_table,""a"",@progbits", false);
   ("__bug_table", Some ".kpatch.__bug_table,""a""", false);
   (".altinstructions", Some ".kpatch.altinstructions,""a""", false);
   (".altinstr_replacement", Some ".kpatch.altinstr_replacement, ""ax""", true);
   (".smp_locks", Some ".kpatch.smp_locks,""a""", false);
   (".parainstructions", Some ".kpatch.parainstructions,""a""", false);
   ("__jump_table", Some ".kpatch.__jump_table,""a""", false);
   (".kpatch.text", None, true);
   (".kpatch.init.pre", Some ".kpatch.init.pre,""aw"",@progbits", false);
   (".kpatch.init", Some ".kpatch.init,""aw"",@progbits", false);
   (".kpatch.init.post", Some ".kpatch.init.post,""aw"",@progbits", false);
   (".kpatch.exit.pre", Some ".kpatch.exit.pre,""aw"",@progbits", false);
   (".kpatch.exit", Some ".kpatch.exit,""aw"",@progbits", false);
   (".kpatch.exit.post", Some ".kpatch.exit.post,""aw"",@progbits", false);
   (".discard", Some ".discard,""awx"",@progbits", true);
   ("__ksymtab", Some ".kpatch.__ksymtab,""a""", false);
   ("__ksymtab_gpl", Some ".kpatch.__ksymtab,""a""", false);
   ("__kcrctab", Some ".kpatch.__kcrctab,""a""", false);
   ("__kcrctab_gpl", Some ".kpatch.__kcrctab,""a""", false);
   ("__kstrtab", Some ".kpatch.__kstrtab,""a""", false)]%string.

(** find_section, 616-627: the tree of the sections seen so far in all files, by
    name, is the list of its elements (C27). *)
Definition find_section (tab : list sect) (n : text) : option sect :=
  find (fun s => list_eqb (sc_name s) n) tab.
(** dup_section, 629-641, followed by the assignment of [prev] in init_sections,
    752 *)
Definition dup_section (s : option sect) (prev : sect) : res sect :=
  match s with Some (Sect n o e _) => Ok (Sect n o e (Some prev)) | None => Fatal end.

(** The name of a section directive, 671-679.  An empty token points to an empty
    string; a token of one quote gets the length -1, which strndup takes as the
    whole rest. *)
Definition section_name (nm : kpstr) : text :=
  match txt nm with
  | [34] => rest nm
  | 34 :: t => match rev t with 34 :: _ => removelast t | _ => txt nm end
  | t => t
  end.
(** Delimiters of section names: space, tab, comma, newline, semicolon (669). *)
Definition sect_delims : text := [32; 9; 44; 10; 59].
(** strpbrk for an x or a quote finding an x, 699-703 *)
Fixpoint x_first (s : text) : bool :=
  match s with [] => false | c :: r => if c =? 120 then true else if c =? 34 then false else x_first r end.
(** __parse_section, 664-708: the section and the table *)
Definition parse_section_line (tab : list sect) (s : text) (cur : sect) : sect * list sect :=
  let (_, s1) := get_token (Some s) in
  let (nm, s2) := get_token_d sect_delims s1 in
  let n := section_name nm in
  match find_section tab n with
  | Some (Sect n' o e _) => (Sect n' o e (Some cur), tab)
  | None =>
      let ex := match s2 with
                | None => false
                | Some _ =>
                    let (c, s3) := get_token s2 in
                    if negb (same (txt c) (str ",")) then false
                    else let (at_, _) := get_token s3 in
                         match txt at_ ++ rest at_ with
                         | 34 :: r => x_first r
                         | _ => false
                         end
                end in
      let new := Sect n None ex (Some cur) in
      (new, tab ++ [new])
  end.
(** parse_section and the loop of init_sections, 710-758, for one line *)
Definition next_section (tab : list sect) (d : dir) (s : text) (cur : sect) : res (sect * list sect) :=
  match d with
  | DText => do x <- dup_section (find_section tab (str ".text")) cur; Ok (x, tab)
  | DData => do x <- dup_section (find_section tab (str ".data")) cur; Ok (x, tab)
  | DBss => do x <- dup_section (find_section tab (str ".bss")) cur; Ok (x, tab)
  | DPushsection | DSection => Ok (parse_section_line tab s cur)
  | DPopsection | DPrevious => do x <- dup_section (sc_prev cur) cur; Ok (x, tab)
  | DSubsection => do x <- dup_section (Some cur) cur; Ok (x, tab)
  | _ => Ok (cur, tab)
  end.

(** A statement with its directive and its section: one index of f->lines,
    f->lines_num, f->ctype and f->section. *)
Record line := { l_text : text; l_num : nat; l_type : dir; l_sect : sect }.
(** init_ctypes (170-182) and init_sections (734-758) from line 1 on *)
Fixpoint sections_from (a : parch) (tab : list sect) (cur : sect) (ls : list stmt) : res (list line * list sect) :=
  match ls with
  | [] => Ok ([], tab)
  | x :: r =>
      let d := parse_ctype a (st_text x) in
      do p <- next_section tab d (st_text x) cur;
      do q <- sections_from a (snd p) (fst p) r;
      Ok ({| l_text := st_text x; l_num := st_num x; l_type := d; l_sect := fst p |} :: fst q, snd q)
  end.
(** Line 0 is in .text (748). *)
Definition init_sections (a : parch) (tab : list sect) (ls : list stmt) : res (list line * list sect) :=
  match ls, find_section tab (str ".text") with
  | [], _ => Ok ([], tab)
  | x :: r, Some t =>
      do q <- sections_from a tab t r;
      Ok ({| l_text := st_text x; l_num := st_num x; l_type := parse_ctype a (st_text x); l_sect := t |} :: fst q, snd q)
  | _, None => Crash
  end.

(** is_sect_cmd, 161-168 *)
Definition is_sect_cmd (d : dir) : bool :=
  match d with
  | DText | DData | DBss | DSection | DPushsection | DPopsection | DPrevious | DSubsection => true
  | _ => false
  end.

(** ** Where functions and variables begin, arch/x86/arch_parse.c:21-194.
    The lines from [l] to the end of the file are the argument; [first] says
    that the line is the one the call began at. *)
Definition hot_label (a : parch) (x : line) : bool :=
  pa_hot a && dir_beq (l_type x) DLabel
  && (contains (l_text x) (str ".LCOLD") || contains (l_text x) (str ".LHOT")).
(** is_function_start, 21-62: the result and the name.  [attr] is the attribute of
    the last .type directive. *)
Fixpoint function_start_from (a : parch) (first func : bool) (nm : kpstr) (attr : text) (ls : list line)
  : res (bool * kpstr) :=
  match ls with
  | [] => Ok (func, nm)
  | x :: r =>
      if negb first && list_eqb (l_text x) [] then function_start_from a false func nm attr r      (* 30-31 *)
      else if (is_sect_cmd (l_type x) && sc_exec (l_sect x)) || dir_beq (l_type x) DAlign          (* 32-34 *)
      then function_start_from a false func nm attr r
      else
        do ta <- get_type_args (l_text x);
        let attr' := match ta with Some (_, at_) => txt at_ | None => attr end in
        if (dir_beq (l_type x) DWeak && negb first) || dir_beq (l_type x) DGlobl || dir_beq (l_type x) DHidden
           || dir_beq (l_type x) DProtected || dir_beq (l_type x) DInternal
           || (dir_beq (l_type x) DType && same attr' (pa_func a))                                  (* 36-39 *)
        then let nm2 := second_token (l_text x) in
             if negb (list_eqb (txt nm) []) && negb (same (txt nm) (txt nm2)) then Ok (false, nm)
             else function_start_from a false (func || dir_beq (l_type x) DType) nm2 attr' r
        else if hot_label a x then function_start_from a false func nm attr' r                      (* 53-57 *)
        else Ok (func, nm)
  end.
Definition is_function_start (a : parch) (ls : list line) : res (bool * kpstr) :=
  function_start_from a true false kempty [] ls.

(** is_variable_start, 117-194: [None] is the result 0; otherwise the number of
    lines up to *e, what is stored through pglobl (nothing for .set), the name. *)
Definition takes_name (d : dir) : bool :=
  match d with DType | DGlobl | DLocal | DLabel => true | _ => false end.
Fixpoint variable_start_from (a : parch) (n : nat) (globl : bool) (nm : kpstr) (ls : list line)
  : res (option (nat * option bool * kpstr)) :=
  match ls with
  | [] => Ok None
  | x :: r =>
      if list_eqb (l_text x) [] && negb (Nat.eqb n 0) then variable_start_from a (S n) globl nm r  (* 129-130 *)
      else if hot_label a x then variable_start_from a (S n) globl nm r                            (* 135-138 *)
      else
        let nm2 := match l_type x with
                   | DLabel => fst (get_token (Some (l_text x)))
                   | _ => second_token (l_text x)
                   end in
        if takes_name (l_type x) && negb (list_eqb (txt nm) []) && negb (same (txt nm) (txt nm2))
        then Ok None                                                                               (* 147-148 *)
        else
          let nm' := if takes_name (l_type x) then nm2 else nm in
          match l_type x with
          | DText | DData | DBss | DSection | DPushsection | DPopsection | DPrevious | DSubsection | DAlign =>
              variable_start_from a (S n) globl nm' r
          | DType =>
              do ta <- get_type_args (l_text x);
              match ta with
              | Some (_, at_) => if existsb (same (txt at_)) (pa_objs a)
                                 then variable_start_from a (S n) globl nm' r else Ok None
              | None => Ok None
              end
          | DGlobl => variable_start_from a (S n) true nm' r
          | DComment | DSize => if Nat.eqb n 0 then Ok None else variable_start_from a (S n) globl nm' r
          | DLabel => if sc_exec (l_sect x) then Ok None else Ok (Some (S n, Some globl, nm'))
          | DLocal => Ok (Some (S n, Some globl, nm'))
          | DSet => if pa_set a then Ok (Some (S n, None, second_token (l_text x))) else Ok None
          | _ => Ok None
          end
  end.
Definition is_variable_start (a : parch) (ls : list line) : res (option (nat * option bool * kpstr)) :=
  variable_start_from a 0 false kempty ls.

(** recog_func_attr, 64-81: 1 when the line says that the function or a cold part
    of it is a function *)
Definition recog_func_attr (a : parch) (x : line) (nm : text) : res Z :=
  if dir_beq (l_type x) DType
  then do ta <- get_type_args (l_text x);
       match ta with
       | Some (fn, at_) =>
           if same (txt at_) (pa_func a)
           then let fn' := if pa_cold a && Nat.ltb (length nm) (length (txt fn)) then remove_cold fn else fn in
                Ok (if same (txt fn') nm then 1 else 0)
           else Ok 0
       | None => Ok 0
       end
  else Ok 0.
(** is_function_end, kpatch_parse.c:779-797 *)
Definition is_function_end (x : line) (nm : text) : bool :=
  dir_beq (l_type x) DSize
  && let n2 := second_token (l_text x) in
     let n2' := if Nat.ltb (length nm) (length (txt n2)) then remove_cold n2 else n2 in
     same nm (txt n2').

(** ** Code blocks, struct cblock, include/kpatch_parse.h:92-117.  A block is
    referred to by its first line; [b_pair] is that of the matched block of the
    other file.  [b_adapted] is not set when a block is created (239-265): its first
    value is what the memory held, [None]. *)
Inductive btype := BFunc | BVar | BAttr | BOther.
Scheme Equality for btype.
Record cblock := { b_start : nat; b_end : nat; b_name : kpstr; b_hname : kpstr; b_auto : bool; b_type : btype;
                   b_globl : bool; b_handled : bool; b_ignore : bool; b_unlink : bool; b_adapted : option bool;
                   b_pair : option nat }.

(** cblock_make_human_name, 213-237.  The delimiters are tab, newline, dot, comma;
    the token is looked for in all that follows the name's start. *)
Definition last_digit (s : text) : bool := match rev s with c :: _ => is_digit c | [] => false end.
Definition drop_digits (s : text) : text :=
  rev ((fix go (r : text) := match r with c :: q => if is_digit c then go q else r | [] => [] end) (rev s)).
Definition human_name (nm : kpstr) : kpstr :=
  let (sub, s) := get_token_d [9; 10; 46; 44] (Some (txt nm ++ rest nm)) in
  if match s with Some _ => last_digit (txt nm) | None => false end then sub
  else if starts (txt nm) (str "__mod_") && last_digit (txt nm)
  then let t := drop_digits (txt nm) in KStr t (skipn (length t) (txt nm ++ rest nm))
  else nm.

(** The blocks of a file are kept as a list in the order of their first lines, which
    is the order they are made in.  rb_insert_node does not insert a second node
    with an equal key (C27), so the tree by name holds the first block of each name
    and the tree by human name the first of each human name.
    cblock_find_by_name, 267-278 *)
Definition find_by_name (bs : list cblock) (nm : text) : option cblock :=
  find (fun b => same (txt (b_name b)) nm) bs.
(** cblock_add, 239-265 *)
Definition new_block (s e : nat) (nm : kpstr) (t : btype) (globl : bool) : cblock :=
  let h := human_name nm in
  {| b_start := s; b_end := e; b_name := nm; b_hname := h; b_auto := negb (same (txt h) (txt nm)); b_type := t;
     b_globl := globl; b_handled := false; b_ignore := false; b_unlink := false; b_adapted := None;
     b_pair := None |}.
Definition cblock_add (bs : list cblock) (b : cblock) : res (list cblock) :=
  if negb (list_eqb (txt (b_name b)) []) && match find_by_name bs (txt (b_name b)) with Some _ => true | None => false end
  then Fatal else Ok (bs ++ [b]).

(** get_kpatch_flags, 301-315 *)
Definition has_adapted (s : text) : res bool :=
  do ts <- tokens_fuel (S (length s)) (snd (get_token (Some s)));
  Ok (existsb (fun t => same (txt t) (str "KPGENSRC_ADAPTED")) ts).

(** The loop of init_func_block, 325-346: the lines of the function (a flags line is
    emptied, 330), those after it, globl and adapted. *)
Definition emptied (x : line) : line :=
  {| l_text := []; l_num := l_num x; l_type := l_type x; l_sect := l_sect x |}.
Fixpoint func_lines (a : parch) (nm : text) (cnt : Z) (globl ad : bool) (ls : list line)
  : res (list line * list line * bool * bool) :=
  match ls with
  | [] => Ok ([], [], globl, ad)
  | x :: r =>
      match r with
      | [] => Ok ([x], [], globl, ad)                          (* e == nr_lines - 1: not looked at, 325 *)
      | _ =>
          let g := globl || dir_beq (l_type x) DGlobl in
          do f <- if dir_beq (l_type x) DKpflags then has_adapted (l_text x) else Ok false;
          let x' := if dir_beq (l_type x) DKpflags then emptied x else x in
          do c <- recog_func_attr a x' nm;
          let cnt1 := cnt + c in
          if is_function_end x' nm && (cnt1 - 1 =? 0)
          then Ok ([x'], r, g, ad || f)
          else do q <- func_lines a nm (if is_function_end x' nm then cnt1 - 1 else cnt1) g (ad || f) r;
               let '(u, v, g', ad') := q in Ok (x' :: u, v, g', ad')
      end
  end.

(** The loop of init_var_block, 359-371: how many lines the variable takes, and
    globl.  A variable that begins but has another name has already overwritten
    globl when the loop is left (360-362). *)
Fixpoint var_lines (a : parch) (n : nat) (nm : text) (globl : bool) (ls : list line) : res (nat * bool) :=
  match ls with
  | [] => Ok (0%nat, globl)
  | x :: r =>
      match n with
      | O => Fuel
      | S n' =>
          do v <- is_variable_start a ls;
          match v with
          | Some (e, g, nm2) =>
              let globl' := match g with Some g => g | None => globl end in
              if negb (same nm (txt nm2)) then Ok (0%nat, globl')
              else do q <- var_lines a n' nm globl' (skipn e ls); Ok ((e + fst q)%nat, snd q)
          | None =>
              if is_data_def a (l_text x)
              then do q <- var_lines a n' nm globl r; Ok (S (fst q), snd q)
              else Ok (0%nat, globl)
          end
      end
  end.

(** is_function_start || is_variable_start, as in 420 and 451 *)
Definition starts_block (a : parch) (ls : list line) : res bool :=
  do f <- is_function_start a ls;
  if fst f then Ok true
  else do v <- is_variable_start a ls; Ok (match v with Some _ => true | None => false end).

(** init_other_block, 405-461.  The first loop: how many lines it passes, the flag,
    and whether the last block is extended.  [last] is the block with the greatest
    first line (rb_last). *)
Inductive extflag := ENone | EIniarr | EUpdate.
Fixpoint other_lines (a : parch) (last : option cblock) (flag : extflag) (ls : list line) : res (nat * extflag) :=
  match ls with
  | [] => Ok (0%nat, flag)
  | x :: r =>
      do b <- starts_block a ls;
      if b then Ok (0%nat, flag)
      else
        let flag' := if dir_beq (l_type x) DSection && list_eqb (sc_name (l_sect x)) (str ".init_array")
                     then EIniarr else flag in
        let go := (do q <- other_lines a last flag' r; Ok (S (fst q), snd q)) in
        match flag' with
        | ENone => go
        | _ =>
            if dir_beq (l_type x) DOther && is_data_def a (l_text x)
            then match last with
                 | None => Ok (1%nat, flag')                                              (* 432-435 *)
                 | Some b => if btype_beq (b_type b) BFunc && same (txt (b_name b)) (txt (second_token (l_text x)))
                             then Ok (1%nat, EUpdate)                                     (* 438-444 *)
                             else go
                 end
            else go
        end
  end.
(** 450-453 *)
Fixpoint until_start (a : parch) (ls : list line) : res nat :=
  match ls with
  | [] => Ok 0%nat
  | _ :: r => do b <- starts_block a ls;
              if b then Ok 0%nat else do n <- until_start a r; Ok (S n)
  end.

(** The end of a block set, 441: the block is the last of the list *)
Definition set_end (b : cblock) (e : nat) : cblock :=
  {| b_start := b_start b; b_end := e; b_name := b_name b; b_hname := b_hname b; b_auto := b_auto b;
     b_type := b_type b; b_globl := b_globl b; b_handled := b_handled b; b_ignore := b_ignore b;
     b_unlink := b_unlink b; b_adapted := b_adapted b; b_pair := b_pair b |}.
Definition set_adapted (b : cblock) : cblock :=
  {| b_start := b_start b; b_end := b_end b; b_name := b_name b; b_hname := b_hname b; b_auto := b_auto b;
     b_type := b_type b; b_globl := b_globl b; b_handled := b_handled b; b_ignore := b_ignore b;
     b_unlink := b_unlink b; b_adapted := Some true; b_pair := b_pair b |}.

(** One round of the loop of cblocks_init, 505-521, on the lines from [i] on: the
    lines taken (as they are now), the lines left, the blocks. *)
Definition one_block (a : parch) (i : nat) (bs : list cblock) (x : line) (r : list line)
  : res (list line * list line * list cblock) :=
  let ls := x :: r in
  if list_eqb (l_text x) [] then Ok ([x], r, bs)                                          (* 506-509 *)
  else
    do f <- is_function_start a ls;
    if fst f
    then (* init_func_block, 317-352 *)
      do q <- func_lines a (txt (snd f)) 0 false false ls;
      let '(u, v, g, ad) := q in
      let b := new_block i (i + length u) (snd f) BFunc g in
      do bs' <- cblock_add bs (if ad then set_adapted b else b);
      Ok (u, v, bs')
    else
      do v <- is_variable_start a ls;
      match v with
      | Some (_, _, nm) =>
          do q <- var_lines a (length ls) (txt nm) false ls;
          do bs' <- cblock_add bs (new_block i (i + fst q) nm BVar (snd q));
          Ok (firstn (fst q) ls, skipn (fst q) ls, bs')
      | None =>
          if dir_beq (l_type x) DSet
          then (* init_set_block, 381-388 *)
            do bs' <- cblock_add bs (new_block i (S i) (second_token (l_text x)) BVar false);
            Ok ([x], r, bs')
          else if dir_beq (l_type x) DWeak || dir_beq (l_type x) DGlobl
          then (* init_attr_block, 463-474: the name is the rest of the line *)
            let t := fst (get_token (Some (l_text x))) in
            let nm := KStr (txt t ++ rest t) [] in
            match find_by_name bs (txt nm) with
            | Some _ => Ok ([x], r, bs)
            | None => do bs' <- cblock_add bs (new_block i (S i) nm BAttr false); Ok ([x], r, bs')
            end
          else (* init_other_block *)
            do q <- other_lines a (match rev bs with b :: _ => Some b | [] => None end) ENone ls;
            let (n, flag) := q in
            match flag with
            | EUpdate => match rev bs with
                         | b :: p => Ok (firstn n ls, skipn n ls, rev p ++ [set_end b (i + n)])
                         | [] => Crash
                         end
            | _ => do m <- match flag with EIniarr => until_start a (skipn n ls) | _ => Ok 0%nat end;
                   do bs' <- cblock_add bs (new_block i (i + n + m) kempty BOther false);
                   Ok (firstn (n + m) ls, skipn (n + m) ls, bs')
            end
      end.
Fixpoint blocks_from (a : parch) (n : nat) (i : nat) (bs : list cblock) (ls : list line)
  : res (list line * list cblock) :=
  match ls with
  | [] => Ok ([], bs)
  | x :: r =>
      match n with
      | O => Fuel
      | S n' => do q <- one_block a i bs x r;
                let '(u, v, bs') := q in
                do w <- blocks_from a n' (i + length u) bs' v;
                Ok (u ++ fst w, snd w)
      end
  end.
(** cblocks_init, 496-522, from line 1 on: the lines of the file and its blocks, by
    first line *)
Definition cblocks_init (a : parch) (ls : list line) : res (list line * list cblock) :=
  match ls with
  | [] => Ok ([], [])
  | x :: r => do w <- blocks_from a (length r) 1 [] r; Ok (x :: fst w, snd w)
  end.
