(** Analysing two assembler files and writing the patched one
    (/repo/src/kpatch_gensrc.c:1-127, 435-525, 882-1613, 1677-1801).  Definitions only. *)
From Coq Require Import String DecimalString.
From Verif Require Import Base StorageModel CliModel TextModel ParseModel RenameModel CmpModel DbgModel.
Open Scope list_scope.

(** ** Lists of symbols, 35-127, 1592-1613.
    An entry is the file, if one is given, and the symbol. *)
Definition symlist := list (option text * text).
(** strtok(optarg, ","): the non-empty pieces *)
Fixpoint split_at (c : Z) (s : text) : list text :=
  match s with
  | [] => [[]]
  | x :: r => match split_at c r with
              | p :: q => if x =? c then [] :: p :: q else (x :: p) :: q
              | [] => [[x]]
              end
  end.
Definition strtok (c : Z) (s : text) : list text := filter (fun p => negb (list_eqb p [])) (split_at c s).
(** strchr(tok, ':'), 1600-1609 *)
Fixpoint before (c : Z) (s : text) : option (text * text) :=
  match s with
  | [] => None
  | x :: r => if x =? c then Some ([], r)
              else match before c r with Some (a, b) => Some (x :: a, b) | None => None end
  end.
Definition sym_desc (tok : text) : option text * text :=
  match before 58 tok with Some (f, s) => (Some f, s) | None => (None, tok) end.
(** parse_sym_list, 1592-1613: the arrays have 32 elements, which nothing checks *)
Definition parse_sym_list (l : symlist) (optarg : text) : res symlist :=
  let l' := l ++ map sym_desc (strtok 44 optarg) in
  if Nat.ltb 32 (length l') then Crash else Ok l'.

(** is_func_in_patch_func_file, 54-73: the lines as fgets gives them (up to the NUL
    strncmp stops at) *)
Fixpoint conf_lines (n : nat) (s : text) : list text :=
  match n, s with
  | S n', _ :: _ => let (l, s') := fgets (Z.to_nat 1023) s in upto_nul l :: conf_lines n' s'
  | _, _ => []
  end.
Definition in_patch_func_file (conf sym : text) : bool :=
  Nat.ltb 0 (length sym) && (Z.of_nat (length sym) <=? 1024)
  && existsb (prefix_of sym) (conf_lines (length conf) conf).
(** The file can be read and does not begin with a newline or a space, 88-101 *)
Definition configured (conf : option text) : bool :=
  match conf with Some (c :: _) => negb ((c =? 10) || (c =? 32)) | _ => false end.
(** in_syms_list, 75-127; [conf] is the file for functions and the list of ignored
    symbols, [None] otherwise *)
Definition in_syms_list (conf : option text) (base sym : text) (l : symlist) : bool :=
  match conf with
  | Some c => if configured conf then negb (in_patch_func_file c sym)
              else existsb (fun x => match fst x with Some f => prefix_of f base | None => true end && same sym (snd x)) l
  | None => existsb (fun x => match fst x with Some f => prefix_of f base | None => true end && same sym (snd x)) l
  end.

(** ** The state of the program *)
(** The options: --os, --arch, --ignore-changes, --unlink-symbols, --must-adapt, the
    configuration file, --force-gotpcrel, --force-global; log2 of the size of a page,
    as printed; and what the memory of a new block holds in [adapted]. *)
Record gopts := { go_rhel5 : bool; go_32 : bool; go_ignore : symlist; go_unlink : symlist; go_adapt : symlist;
                  go_conf : option text; go_got : bool; go_global : bool; go_shift : text; go_junk : bool }.
Record gfile := { g_lines : list line; g_blocks : list cblock; g_ren : rtab; g_dir : text; g_base : text }.
(** The two files, the output file, the numbers of kpatch_strtab labels (1430) and
    init_data_section (451) *)
Record gst := { s_0 : gfile; s_1 : gfile; s_out : text; s_nsyms : Z; s_data : bool }.

Definition with_blocks (f : gfile) (bs : list cblock) : gfile :=
  {| g_lines := g_lines f; g_blocks := bs; g_ren := g_ren f; g_dir := g_dir f; g_base := g_base f |}.
Definition with_ren (f : gfile) (r : rtab) : gfile :=
  {| g_lines := g_lines f; g_blocks := g_blocks f; g_ren := r; g_dir := g_dir f; g_base := g_base f |}.
Definition with_0 (s : gst) (f : gfile) : gst :=
  {| s_0 := f; s_1 := s_1 s; s_out := s_out s; s_nsyms := s_nsyms s; s_data := s_data s |}.
Definition with_1 (s : gst) (f : gfile) : gst :=
  {| s_0 := s_0 s; s_1 := f; s_out := s_out s; s_nsyms := s_nsyms s; s_data := s_data s |}.
Definition emit (t : text) (s : gst) : gst :=
  {| s_0 := s_0 s; s_1 := s_1 s; s_out := s_out s ++ t; s_nsyms := s_nsyms s; s_data := s_data s |}.
Definition with_data (s : gst) : gst :=
  {| s_0 := s_0 s; s_1 := s_1 s; s_out := s_out s; s_nsyms := s_nsyms s; s_data := true |}.
Definition next_sym (s : gst) : gst :=
  {| s_0 := s_0 s; s_1 := s_1 s; s_out := s_out s; s_nsyms := s_nsyms s + 1; s_data := s_data s |}.

(** Fields of a block *)
Definition set_pair (p : nat) (b : cblock) : cblock :=
  {| b_start := b_start b; b_end := b_end b; b_name := b_name b; b_hname := b_hname b; b_auto := b_auto b;
     b_type := b_type b; b_globl := b_globl b; b_handled := b_handled b; b_ignore := b_ignore b;
     b_unlink := b_unlink b; b_adapted := b_adapted b; b_pair := Some p |}.
Definition set_handled (b : cblock) : cblock :=
  {| b_start := b_start b; b_end := b_end b; b_name := b_name b; b_hname := b_hname b; b_auto := b_auto b;
     b_type := b_type b; b_globl := b_globl b; b_handled := true; b_ignore := b_ignore b;
     b_unlink := b_unlink b; b_adapted := b_adapted b; b_pair := b_pair b |}.
Definition set_ignore (b : cblock) : cblock :=
  {| b_start := b_start b; b_end := b_end b; b_name := b_name b; b_hname := b_hname b; b_auto := b_auto b;
     b_type := b_type b; b_globl := b_globl b; b_handled := b_handled b; b_ignore := true;
     b_unlink := b_unlink b; b_adapted := b_adapted b; b_pair := b_pair b |}.
Definition set_unlink (b : cblock) : cblock :=
  {| b_start := b_start b; b_end := b_end b; b_name := b_name b; b_hname := b_hname b; b_auto := b_auto b;
     b_type := b_type b; b_globl := b_globl b; b_handled := b_handled b; b_ignore := b_ignore b;
     b_unlink := true; b_adapted := b_adapted b; b_pair := b_pair b |}.

(** A block is referred to by its first line. *)
Definition getb (f : gfile) (s : nat) : option cblock := find (fun b => Nat.eqb (b_start b) s) (g_blocks f).
Definition updb (s : nat) (g : cblock -> cblock) (f : gfile) : gfile :=
  with_blocks f (map (fun b => if Nat.eqb (b_start b) s then g b else b) (g_blocks f)).
Definition upd0 (s : nat) (g : cblock -> cblock) (st : gst) : gst := with_0 st (updb s g (s_0 st)).
Definition upd1 (s : nat) (g : cblock -> cblock) (st : gst) : gst := with_1 st (updb s g (s_1 st)).
(** b0->pair = b1; b1->pair = b0 *)
Definition join (p0 p1 : nat) (st : gst) : gst := upd1 p1 (set_pair p0) (upd0 p0 (set_pair p1) st).
(** cblock_find_by_human_name, kpatch_parse.c:280-299: the one block of the tree *)
Definition find_by_hname (bs : list cblock) (nm : text) : option cblock :=
  find (fun b => same (txt (b_hname b)) nm) bs.
(** cblock_first, cblock_next, cblock_skip, kpatch_parse.c:540-561: the first block of
    type [t] from line [s] on *)
Definition block_from (f : gfile) (s : nat) (t : btype) : option nat :=
  match find (fun b => Nat.leb s (b_start b) && btype_beq (b_type b) t) (g_blocks f) with
  | Some b => Some (b_start b) | None => None
  end.
Definition next_after (f : gfile) (s : nat) (t : btype) : option nat := block_from f (S s) t.
(** The lines of a block *)
Definition blines (f : gfile) (b : cblock) : list line := firstn (b_end b - b_start b) (skipn (b_start b) (g_lines f)).

Definition ren0 (st : gst) (src dst : text) : res gst := do r <- rename_add (g_ren (s_0 st)) src dst; Ok (with_0 st (with_ren (s_0 st) r)).
Definition ren1 (st : gst) (src dst : text) : res gst := do r <- rename_add (g_ren (s_1 st)) src dst; Ok (with_1 st (with_ren (s_1 st) r)).
Definition del0 (src : text) (st : gst) : gst := with_0 st (with_ren (s_0 st) (rename_del (g_ren (s_0 st)) src)).
Definition del1 (src : text) (st : gst) : gst := with_1 st (with_ren (s_1 st) (rename_del (g_ren (s_1 st)) src)).

(** A loop over blocks *)
Fixpoint rfold {A S : Type} (g : A -> S -> res S) (l : list A) (s : S) : res S :=
  match l with [] => Ok s | x :: r => do s' <- g x s; rfold g r s' end.
Definition starts_of (f : gfile) : list nat := map b_start (g_blocks f).
Definition each0 (g : cblock -> gst -> res gst) (st : gst) : res gst :=
  rfold (fun s st => match getb (s_0 st) s with Some b => g b st | None => Ok st end) (starts_of (s_0 st)) st.
Definition each1 (g : cblock -> gst -> res gst) (st : gst) : res gst :=
  rfold (fun s st => match getb (s_1 st) s with Some b => g b st | None => Ok st end) (starts_of (s_1 st)) st.

(** cblock_cmp of a block of the first file and one of the second *)
Definition cmp_blocks (o : gopts) (st : gst) (flags : bool) (b0 b1 : cblock) : res bool :=
  cblock_cmp {| ce_type := b_type b0; ce_nm0 := txt (b_name b0); ce_nm1 := txt (b_name b1);
                ce_dir0 := g_dir (s_0 st); ce_dir1 := g_dir (s_1 st);
                ce_r0 := g_ren (s_0 st); ce_r1 := g_ren (s_1 st);
                ce_rhel5 := go_rhel5 o; ce_sect := flags; ce_rename := flags |}
             (blines (s_0 st) b0) (blines (s_1 st) b1).

(** ** Variables, 882-949, 1037-1102 *)
Definition name (b : cblock) : text := txt (b_name b).
Definition hname (b : cblock) : text := txt (b_hname b).
(** __cblock_var_cmp, 882-906; the state has the renames the deletions leave *)
Definition var_cmp (o : gopts) (st : gst) (b0 b1 : cblock) : res (bool * gst) :=
  if match b_pair b1 with Some p => negb (Nat.eqb p (b_start b0)) | None => false end then Ok (true, st)
  else if match rename_find (g_ren (s_1 st)) (name b1) with Some d => negb (same (name b0) d) | None => false end
  then Ok (true, st)
  else if negb (same (hname b0) (hname b1)) then Ok (true, st)
  else do st1 <- ren0 st (name b0) (name b1);
       do st2 <- ren1 st1 (name b1) (name b0);
       do d <- cmp_blocks o st2 true b0 b1;
       Ok (d, del1 (name b1) (del0 (name b0) st2)).
(** The loop of cblock_var_try_to_match, 921-925 *)
Fixpoint var_search (o : gopts) (st : gst) (b0 : cblock) (ss : list nat) : res (option nat * gst) :=
  match ss with
  | [] => Ok (None, st)
  | s :: r => match getb (s_1 st) s with
              | Some b1 => if btype_beq (b_type b1) BVar
                           then do q <- var_cmp o st b0 b1;
                                if fst q then var_search o (snd q) b0 r else Ok (Some s, snd q)
                           else var_search o st b0 r
              | None => var_search o st b0 r
              end
  end.
(** cblock_var_try_to_match, 908-926 *)
Definition var_try (o : gopts) (st : gst) (b0 : cblock) (b1 : option nat) : res (option nat * gst) :=
  if negb (b_auto b0)
  then Ok (match find_by_name (g_blocks (s_1 st)) (name b0) with Some b => Some (b_start b) | None => None end, st)
  else do q <- match match b1 with Some s => getb (s_1 st) s | None => None end with
               | Some b => var_cmp o st b0 b
               | None => Ok (true, st)
               end;
       if fst q then var_search o (snd q) b0 (starts_of (s_1 (snd q))) else Ok (b1, snd q).
(** One round of the loop over b0, 1045-1061: the state, b1, progress *)
Definition var_round_step (o : gopts) (pass0 : bool) (s : nat) (x : gst * option nat * bool)
  : res (gst * option nat * bool) :=
  let '(st, b1, progress) := x in
  match getb (s_0 st) s with
  | None => Ok x
  | Some b0 =>
      if negb (btype_beq (b_type b0) BVar) then Ok x
      else if match b_pair b0 with Some _ => true | None => false end then Ok x
      else if pass0 && starts (name b0) desc_str then Ok x
      else do q <- var_try o st b0 b1;
           match fst q with
           | None => Ok (snd q, None, progress)
           | Some s1 =>
               match getb (s_1 (snd q)) s1 with
               | None => Crash
               | Some c1 =>
                   do st1 <- ren0 (snd q) (name b0) (name c1);
                   do st2 <- ren1 st1 (name c1) (name b0);
                   let st3 := join s s1 st2 in
                   Ok (st3, next_after (s_1 st3) s1 BVar, true)
               end
           end
  end.
Definition var_round (o : gopts) (pass0 : bool) (st : gst) : res (gst * bool) :=
  do x <- rfold (var_round_step o pass0) (starts_of (s_0 st)) (st, block_from (s_1 st) 0 BVar, false);
  Ok (fst (fst x), snd x).
(** The outer loop, 1042-1064 *)
Fixpoint var_rounds (o : gopts) (n : nat) (pass : nat) (st : gst) : res gst :=
  match n with
  | O => Fuel
  | S n' => do x <- var_round o (Nat.eqb pass 0) st;
            let pass' := if snd x then pass else S pass in
            if Nat.ltb pass' 2 then var_rounds o n' pass' (fst x) else Ok (fst x)
  end.
(** 1066-1079 *)
Definition may_vanish (nm : text) : bool :=
  starts nm (str ".LC") || starts nm (str "warned.") || starts nm (str "__warned.") || starts nm (str "__func__.")
  || starts nm desc_str.
Definition var_removed (b0 : cblock) (st : gst) : res gst :=
  if btype_beq (b_type b0) BVar && match b_pair b0 with None => true | Some _ => false end && negb (may_vanish (name b0))
  then Fatal else Ok st.
(** analyze_var_cblocks_matches, 1037-1080 *)
Definition var_matches (o : gopts) (st : gst) : res gst :=
  do st1 <- var_rounds o (length (g_blocks (s_0 st)) + 2) 0 st;
  each0 var_removed st1.
(** cblock_var_check_content, 928-949 *)
Definition var_check (o : gopts) (b0 : cblock) (st : gst) : res gst :=
  if negb (btype_beq (b_type b0) BVar) then Ok st
  else match b_pair b0 with
       | None => Ok st
       | Some s1 =>
           if in_syms_list None (g_base (s_1 st)) (hname b0) (go_ignore o) then Ok st
           else match getb (s_1 st) s1 with
                | None => Crash
                | Some b1 => do d <- cmp_blocks o st true b0 b1; if d then Fatal else Ok st
                end
       end.
(** __name_add_kpatch_suffix, 988-1002: the length of the new name counts the NUL *)
Definition kpatch_name (base : text) : text := base ++ str ".kpatch" ++ [0].
Definition new_name1 (src base : text) (st : gst) : res gst := ren1 st src (kpatch_name base).
Definition new_name0 (src base : text) (st : gst) : res gst := ren0 st src (kpatch_name base).
(** analyze_var_cblocks, 1082-1102 *)
Definition analyze_var (o : gopts) (st : gst) : res gst :=
  do st1 <- var_matches o st;
  do st2 <- each0 (var_check o) st1;
  each1 (fun b1 st => if btype_beq (b_type b1) BVar && match b_pair b1 with None => true | Some _ => false end
                      then new_name1 (name b1) (name b1) st else Ok st) st2.

(** ** Functions, 954-1033, 1108-1288 *)
Definition labels (ls : list line) : list line := filter (fun x => dir_beq (l_type x) DLabel) ls.
(** cblock_func_match_labels, 954-986: the renames of the first file *)
Fixpoint match_labels (add : bool) (r : rtab) (l0 l1 : list line) : res rtab :=
  match l0, l1 with
  | x0 :: q0, x1 :: q1 =>
      if list_eqb (l_text x0) (l_text x1) then match_labels add r q0 q1
      else let (t0, s0) := get_token (Some (l_text x0)) in
           let (t1, s1) := get_token (Some (l_text x1)) in
           do r' <- if add then rename_add r (txt t0) (txt t1) else Ok (rename_del r (txt t0));
           match s0, s1 with
           | Some (58 :: _), Some (58 :: _) => match_labels add r' q0 q1
           | _, _ => Fatal
           end
  | _, _ => Ok r
  end.
Definition match_func_labels (add : bool) (st : gst) (b0 b1 : cblock) : res gst :=
  do r <- match_labels add (g_ren (s_0 st)) (labels (blines (s_0 st) b0)) (labels (blines (s_1 st) b1));
  Ok (with_0 st (with_ren (s_0 st) r)).
(** cblock_make_new_labels, 1004-1027 *)
Fixpoint new_labels (nm : text) (r : rtab) (ls : list line) : res rtab :=
  match ls with
  | [] => Ok r
  | x :: q => let (t, s) := get_token (Some (l_text x)) in
              match s with
              | Some (58 :: _) =>
                  if same (txt t) nm then new_labels nm r q
                  else do r' <- rename_add r (txt t) (kpatch_name (txt t)); new_labels nm r' q
              | _ => Fatal
              end
  end.
Definition make_new_labels (b1 : cblock) (st : gst) : res gst :=
  do r <- new_labels (name b1) (g_ren (s_1 st)) (labels (blines (s_1 st) b1));
  Ok (with_1 st (with_ren (s_1 st) r)).

(** What follows a match, 1157-1161, 1183-1190 *)
Definition func_join (b0 b1 : cblock) (st : gst) : res gst :=
  do st1 <- match_func_labels true (join (b_start b0) (b_start b1) st) b0 b1;
  do st2 <- new_name1 (name b1) (name b1) (del0 (name b0) st1);
  new_name0 (name b0) (name b1) st2.
(** Pass 1, 1146-1164 *)
Definition func_exact (b0 : cblock) (st : gst) : res gst :=
  if negb (btype_beq (b_type b0) BFunc) || b_auto b0 then Ok st
  else match find_by_name (g_blocks (s_1 st)) (name b0) with
       | Some b1 => func_join b0 b1 st
       | None => Ok st
       end.
(** func_match_by_human_name, 1108-1136: the tree has one block with the name, so the
    loop looks at one block.  [cmp] is the argument. *)
Definition match_human (o : gopts) (cmp : bool) (b0 : cblock) (b1 : option cblock) (st : gst) : res (option cblock * gst) :=
  match b1 with
  | None => Ok (None, st)
  | Some c =>
      if negb (b_auto c) || match b_pair c with Some _ => true | None => false end then Ok (None, st)
      else if cmp
      then do st1 <- match_func_labels true st b0 c;
           do d <- cmp_blocks o st1 true b0 c;
           do st2 <- match_func_labels false st1 b0 c;
           Ok (if d then None else Some c, st2)
      else Ok (Some c, st)
  end.
(** Pass 2a, 1175-1194 *)
Definition func_human (o : gopts) (cmp : bool) (b0 : cblock) (st : gst) : res gst :=
  if negb (btype_beq (b_type b0) BFunc) || match b_pair b0 with Some _ => true | None => false end || negb (b_auto b0)
  then Ok st
  else do q <- match_human o cmp b0 (find_by_hname (g_blocks (s_1 st)) (hname b0)) st;
       match fst q with Some b1 => func_join b0 b1 (snd q) | None => Ok (snd q) end.
(** Pass 2b, 1205-1216 *)
Definition func_new (b1 : cblock) (st : gst) : res gst :=
  if negb (btype_beq (b_type b1) BFunc) || match b_pair b1 with Some _ => true | None => false end then Ok st
  else match rename_find (g_ren (s_1 st)) (name b1) with
       | Some _ => Ok st
       | None => do st1 <- if b_auto b1 then new_name1 (name b1) (name b1) st else Ok st;
                 make_new_labels b1 st1
       end.
(** Pass 3, 1246-1259 *)
Definition func_config (o : gopts) (b1 : cblock) (st : gst) : res gst :=
  if negb (btype_beq (b_type b1) BFunc) then Ok st
  else match b_pair b1 with
       | None => Ok st
       | Some s0 =>
           do st1 <- if in_syms_list (go_conf o) (g_base (s_1 st)) (hname b1) (go_ignore o)
                     then match getb (s_0 st) s0 with
                          | Some b0 => Ok (upd1 (b_start b1) set_ignore (del0 (name b0) (del1 (name b1) st)))
                          | None => Crash
                          end
                     else Ok st;
           Ok (if in_syms_list None (g_base (s_1 st)) (hname b1) (go_unlink o)
               then upd1 (b_start b1) set_unlink st1 else st1)
       end.
(** Pass 4, 1262-1285; the flag is not_adapted *)
Definition func_changed (o : gopts) (s : nat) (x : gst * bool) : res (gst * bool) :=
  let (st, na) := x in
  match getb (s_1 st) s with
  | None => Ok x
  | Some b1 =>
      if negb (btype_beq (b_type b1) BFunc) || b_ignore b1 then Ok x
      else match b_pair b1 with
           | None => Ok x
           | Some s0 =>
               match getb (s_0 st) s0 with
               | None => Crash
               | Some b0 =>
                   do d <- cmp_blocks o st true b0 b1;
                   if negb d
                   then do st1 <- ren0 (del1 (name b1) (del0 (name b0) st)) (name b0) (name b1);
                        do st2 <- ren1 st1 (name b1) (name b0);
                        Ok (upd1 s set_ignore st2, na)
                   else
                     let adapted := match b_adapted b1 with Some a => a | None => go_junk o end in
                     let na' := na || (negb adapted && in_syms_list None (g_base (s_1 st)) (hname b1) (go_adapt o)) in
                     do st1 <- make_new_labels b1 st;
                     Ok (st1, na')
               end
           end
  end.
(** analyze_func_cblocks, 1138-1288 *)
Definition analyze_func (o : gopts) (st : gst) : res gst :=
  do st1 <- each0 func_exact st;
  do st2 <- each0 (func_human o true) st1;
  do st3 <- each0 (func_human o false) st2;
  do st4 <- each1 func_new st3;
  do st5 <- each1 (func_config o) st4;
  do x <- rfold (func_changed o) (starts_of (s_1 st5)) (st5, false);
  if snd x then Fatal else Ok (fst x).

(** ** The other blocks, 1290-1315; cblock_split, kpatch_parse.c:476-494 *)
Definition split_block (len : nat) (b : cblock) : list cblock :=
  [set_end b (b_start b + len);
   {| b_start := b_start b + len; b_end := b_end b; b_name := b_name b; b_hname := kempty; b_auto := false;
      b_type := b_type b; b_globl := false; b_handled := false; b_ignore := false; b_unlink := false;
      b_adapted := Some false; b_pair := None |}].
Definition cblock_split (s len : nat) (f : gfile) : gfile :=
  with_blocks f (flat_map (fun b => if Nat.eqb (b_start b) s then split_block len b else [b]) (g_blocks f)).
Definition size (b : cblock) : nat := b_end b - b_start b.
Fixpoint analyze_other_from (o : gopts) (n : nat) (p0 p1 : option nat) (st : gst) : res gst :=
  match p0, p1 with
  | Some s0, Some s1 =>
      match n with
      | O => Fuel
      | S n' =>
          match getb (s_0 st) s0, getb (s_1 st) s1 with
          | Some b0, Some b1 =>
              do d <- cmp_blocks o st false b0 b1;
              do st' <- if negb d then Ok st
                        else let st1 := if Nat.ltb (size b0) (size b1)
                                        then with_1 st (cblock_split s1 (size b0) (s_1 st)) else st in
                             let st2 := if Nat.ltb (size b1) (size b0)
                                        then with_0 st1 (cblock_split s0 (size b1) (s_0 st1)) else st1 in
                             match getb (s_0 st2) s0, getb (s_1 st2) s1 with
                             | Some c0, Some c1 => do d' <- cmp_blocks o st2 false c0 c1; if d' then Fatal else Ok st2
                             | _, _ => Crash
                             end;
              let st3 := join s0 s1 st' in
              analyze_other_from o n' (next_after (s_0 st3) s0 BOther) (next_after (s_1 st3) s1 BOther) st3
          | _, _ => Crash
          end
      end
  | _, _ => Ok st
  end.
Definition analyze_other (o : gopts) (st : gst) : res gst :=
  analyze_other_from o (S (length (g_lines (s_0 st)))) (block_from (s_0 st) 0 BOther) (block_from (s_1 st) 0 BOther) st.

(** ** Writing, 449-525, 1318-1590 *)
Definition lf : text := [10].
Definition tab : text := [9].
(** %d *)
Definition print_int (z : Z) : text := str (NilZero.string_of_int (Z.to_int z)).
(** change_section, 449-474 *)
Definition change_section (o : gopts) (push : bool) (sect : sect) (st : gst) : gst :=
  let head s := tab ++ str "." ++ (if push then str "push" else []) ++ str "section " ++ s ++ lf in
  match sc_out sect with
  | Some s => emit (head s) st
  | None =>
      if sc_exec sect then emit (head (str ".kpatch.text,""ax"",@progbits")) st
      else let st1 := emit (head (str ".kpatch.data,""aw"",@progbits")) st in
           if s_data st then st1 else emit (tab ++ str ".p2align" ++ tab ++ go_shift o ++ lf) (with_data st1)
  end.
(** get_comm_args, 476-502: the name, the size, the alignment *)
Definition comm_number (t : kpstr) : res Z :=
  let (v, e) := strtoul (txt t ++ rest t) in
  if Nat.eqb (length e) (length (txt t ++ rest t)) then Fatal else Ok (s32 v).
Definition get_comm_args (s : text) : res (text * Z * Z) :=
  let (t, s1) := get_token (Some s) in
  if negb (same (txt t) (str ".comm")) then Fatal
  else let (nm, s2) := get_token s1 in
       let (c, s3) := get_token s2 in
       if negb (same (txt c) (str ",")) then Fatal
       else let (z, s4) := get_token s3 in
            do sz <- comm_number z;
            match s4 with
            | None => Ok (txt nm, sz, 0)
            | Some _ => let (c2, s5) := get_token s4 in
                        if negb (same (txt c2) (str ",")) then Fatal
                        else let (al, _) := get_token s5 in
                             do a <- comm_number al; Ok (txt nm, sz, a)
            end.
(** The new name of a symbol as printed by %.*s *)
Definition renamed (r : rtab) (nm : text) : text :=
  match rename_find r nm with Some d => upto_nul d | None => nm end.
Definition data_sect : sect := Sect (str ".data") None false None.
(** add_comm_cmd, 506-525 *)
Definition add_comm_cmd (o : gopts) (ren : option rtab) (s : text) (st : gst) : res gst :=
  do x <- get_comm_args s;
  let '(nm, sz, align) := x in
  let nm' := match ren with Some r => renamed r nm | None => nm end in
  let st1 := change_section o true data_sect st in
  let st2 := if align =? 0 then st1 else emit (tab ++ str ".align" ++ tab ++ print_int align ++ lf) st1 in
  let st3 := emit (nm' ++ str ":" ++ lf) st2 in
  let st4 := if sz =? 0 then st3 else emit (tab ++ str ".zero" ++ tab ++ print_int sz ++ lf) st3 in
  Ok (emit (tab ++ str ".popsection" ++ lf) st4).

(** cblock_write_line, 1318-1337: [ren] is None without FLAG_RENAME; [next] is the line
    number of the statement after this one *)
Definition line_text (ren : option rtab) (got : bool) (x : line) (next : nat) : res text :=
  do s1 <- match ren with Some r => str_do_rename r (l_text x) | None => Ok (l_text x) end;
  do s2 <- if got then str_do_gotpcrel s1 else Ok s1;
  do e <- separator s2 (l_num x) next;
  Ok (s2 ++ e).
Definition num_at (f : gfile) (i : nat) : nat := match nth_error (g_lines f) i with Some x => l_num x | None => 0%nat end.
(** cblock_write, 1339-1345, from line [i] on *)
Fixpoint write_lines (ren : option rtab) (got : bool) (f : gfile) (i : nat) (ls : list line) : res text :=
  match ls with
  | [] => Ok []
  | x :: r => do t <- line_text ren got x (num_at f (S i));
              do q <- write_lines ren got f (S i) r;
              Ok (t ++ q)
  end.
Definition cblock_text (ren : option rtab) (f : gfile) (b : cblock) : res text :=
  write_lines ren false f (b_start b) (blines f b).
(** cblock_write_other, 1347-1353, of a block of the second file *)
Definition write_other (b1 : cblock) (st : gst) : res gst :=
  do t <- cblock_text None (s_1 st) b1;
  let st1 := upd1 (b_start b1) set_handled (emit t st) in
  Ok (match b_pair b1 with Some s0 => upd0 s0 set_handled st1 | None => st1 end).
(** cblock_write_attr, 1355-1364, of blocks of the first and the second file *)
Definition write_attr0 (b0 : cblock) (st : gst) : res gst :=
  do t <- cblock_text (Some (g_ren (s_0 st))) (s_0 st) b0;
  let st1 := upd0 (b_start b0) set_handled (emit t st) in
  Ok (match find_by_name (g_blocks (s_1 st)) (name b0) with
      | Some b1 => upd1 (b_start b1) set_handled (join (b_start b0) (b_start b1) st1)
      | None => st1
      end).
Definition write_attr1 (b1 : cblock) (st : gst) : res gst :=
  do t <- cblock_text (Some (g_ren (s_1 st))) (s_1 st) b1;
  let st1 := upd1 (b_start b1) set_handled (emit t st) in
  Ok (match find_by_name (g_blocks (s_0 st)) (name b1) with
      | Some b0 => upd0 (b_start b0) set_handled (join (b_start b0) (b_start b1) st1)
      | None => st1
      end).
Definition pair1 (b0 : cblock) (st : gst) : option cblock :=
  match b_pair b0 with Some s => getb (s_1 st) s | None => None end.
Definition pair_globl (b0 : cblock) (st : gst) : bool :=
  match pair1 b0 st with Some b1 => b_globl b1 | None => false end.
(** cblock_write_var, 1366-1376 *)
Definition write_var (b0 : cblock) (st : gst) : res gst :=
  do t <- cblock_text None (s_0 st) b0;
  let g := if pair_globl b0 st && negb (b_globl b0) then tab ++ str ".globl " ++ name b0 ++ lf else [] in
  let st1 := upd0 (b_start b0) set_handled (emit (str "#---------- var ---------" ++ lf ++ g ++ t) st) in
  Ok (match b_pair b0 with Some s1 => upd1 s1 set_handled st1 | None => st1 end).
(** __cblock_gen, 1378-1405 *)
Definition gen_changes_section (d : dir) : bool :=
  match d with DText | DData | DBss | DPushsection | DSection | DPopsection | DPrevious => true | _ => false end.
Fixpoint gen_lines (o : gopts) (got : bool) (f : gfile) (first : bool) (i : nat) (ls : list line) (st : gst) : res gst :=
  match ls with
  | [] => Ok st
  | x :: r =>
      do st1 <- if gen_changes_section (l_type x)
                then Ok (if first then st else change_section o false (l_sect x) st)
                else if dir_beq (l_type x) DComm then add_comm_cmd o (Some (g_ren f)) (l_text x) st
                else do t <- line_text (Some (g_ren f)) got x (num_at f (S i)); Ok (emit t st);
      gen_lines o got f false (S i) r st1
  end.
(** cblock_gen, 1408-1418 *)
Definition cblock_gen (o : gopts) (got : bool) (b1 : cblock) (st : gst) : res gst :=
  match nth_error (g_lines (s_1 st)) (b_start b1) with
  | None => Fatal
  | Some x =>
      let st1 := change_section o true (l_sect x) st in
      let func := btype_beq (b_type b1) BFunc in
      let st2 := if go_global o && func then emit (tab ++ str ".globl" ++ tab ++ name b1 ++ str ".kpatch" ++ lf) st1 else st1 in
      do st3 <- gen_lines o got (s_1 st) true (b_start b1) (blines (s_1 st) b1) st2;
      let st4 := if func then emit (name b1 ++ str ".kpatch_end:" ++ lf) st3 else st3 in
      Ok (upd1 (b_start b1) set_handled (emit (tab ++ str ".popsection" ++ lf) st4))
  end.
(** write_new_function, 1428-1481 *)
Definition new_function_info (o : gopts) (bnm nm : text) (orig : option text) (n : Z) : text :=
  let slong := if go_32 o then str ".long" else str ".quad" in
  let pad := if go_32 o then tab ++ str ".long 0" ++ lf else [] in
  tab ++ str ".pushsection .kpatch.strtab,""a"",@progbits" ++ lf
  ++ str "kpatch_strtab" ++ print_int n ++ str ":" ++ lf
  ++ tab ++ str ".string """ ++ bnm ++ str """" ++ lf
  ++ tab ++ str ".popsection" ++ lf
  ++ tab ++ str ".pushsection .kpatch.info,""a"",@progbits" ++ lf
  ++ nm ++ str ".Lpi:" ++ lf
  ++ match orig with
     | Some d => tab ++ slong ++ str " " ++ d ++ lf ++ pad
     | None => tab ++ str ".quad 0" ++ lf
     end
  ++ tab ++ slong ++ str " " ++ bnm ++ lf ++ pad
  ++ match orig with
     | Some d => tab ++ str ".long " ++ d ++ str ".Lfe - " ++ d ++ lf
     | None => tab ++ str ".long 0" ++ lf
     end
  ++ tab ++ str ".long " ++ nm ++ str ".kpatch_end - " ++ bnm ++ lf
  ++ tab ++ slong ++ str " kpatch_strtab" ++ print_int n ++ lf ++ pad
  ++ tab ++ str ".quad 0" ++ lf
  ++ tab ++ str ".long 0" ++ lf
  ++ tab ++ str ".byte 0, 0, 0, 0" ++ lf
  ++ tab ++ str ".popsection" ++ lf ++ lf.
Definition write_new_function (o : gopts) (b1 : cblock) (st : gst) : res gst :=
  let bnm := renamed (g_ren (s_1 st)) (name b1) in
  do st1 <- cblock_gen o (go_got o) b1 st;
  let st2 := next_sym (emit lf st1) in
  do orig <- match b_pair b1 with
             | Some s0 => if b_unlink b1 then Ok None
                          else match getb (s_0 st) s0 with Some b0 => Ok (Some (name b0)) | None => Crash end
             | None => Ok None
             end;
  Ok (emit (new_function_info o bnm (name b1) orig (s_nsyms st2)) st2).
(** cblock_write_func, 1483-1513 *)
Definition write_func (o : gopts) (b0 : cblock) (st : gst) : res gst :=
  do t <- cblock_text None (s_0 st) b0;
  let g := if go_global o || (pair_globl b0 st && negb (b_globl b0)) then tab ++ str ".globl" ++ tab ++ name b0 ++ lf else [] in
  let st1 := upd0 (b_start b0) set_handled (emit (str "#---------- func ---------" ++ lf ++ g ++ t) st) in
  match b_pair b0 with
  | None => Ok st1
  | Some s1 =>
      let st2 := upd1 s1 set_handled st1 in
      match getb (s_1 st2) s1 with
      | None => Crash
      | Some b1 =>
          if b_ignore b1 || b_unlink b1 then Ok st2
          else do st3 <- write_new_function o b1
                           (emit (tab ++ str ".text" ++ lf ++ name b0 ++ str ".Lfe:" ++ lf
                                  ++ str "#---------- kpatch begin ---------" ++ lf) st2);
               Ok (emit (str "#---------- kpatch end -----------" ++ lf) st3)
      end
  end.
(** write_cblocks, 1516-1590 *)
Definition write_header (st : gst) : res gst :=
  match find (fun b => btype_beq (b_type b) BOther) (g_blocks (s_1 st)) with
  | Some b1 => write_other b1 st
  | None => Ok st
  end.
Definition write_original (o : gopts) (b0 : cblock) (st : gst) : res gst :=
  match b_type b0 with BFunc => write_func o b0 st | BVar => write_var b0 st | _ => Ok st end.
Definition write_new (o : gopts) (b1 : cblock) (st : gst) : res gst :=
  match b_pair b1 with
  | Some _ => Ok st
  | None => match b_type b1 with
            | BFunc => write_new_function o b1 (emit (str "#---------- new func ---------" ++ lf) st)
            | BVar => cblock_gen o false b1 st
            | _ => Ok st
            end
  end.
Definition rename_unlinked (b1 : cblock) (st : gst) : res gst :=
  if btype_beq (b_type b1) BFunc && b_unlink b1
  then do st1 <- make_new_labels b1 st; new_name1 (name b1) (name b1) st1 else Ok st.
Definition write_unlinked (o : gopts) (b1 : cblock) (st : gst) : res gst :=
  if btype_beq (b_type b1) BFunc && b_unlink b1
  then write_new_function o b1 (emit (str "#---------- unlinked func ---------" ++ lf) st) else Ok st.
Definition write_cblocks (o : gopts) (st : gst) : res gst :=
  do st0 <- write_header st;
  do st1 <- each0 (write_original o) st0;
  do st2 <- each1 (write_new o) st1;
  do st3 <- each1 rename_unlinked st2;
  do st4 <- each1 (write_unlinked o) st3;
  do st5 <- each0 (fun b0 st => if btype_beq (b_type b0) BAttr then write_attr0 b0 st else Ok st) st4;
  do st6 <- each1 (fun b1 st => if btype_beq (b_type b1) BAttr && negb (b_handled b1) then write_attr1 b1 st else Ok st) st5;
  do st7 <- each1 (fun b1 st => if btype_beq (b_type b1) BOther && negb (b_handled b1) then write_other b1 st else Ok st) st6;
  if forallb b_handled (g_blocks (s_0 st7)) && forallb b_handled (g_blocks (s_1 st7)) then Ok st7 else Fatal.

(** ** The program with two input files, 1759-1801.
    An input is its directory, its name and its contents; [buf] is BUFSIZE - 1. *)
Record input := { in_dir : text; in_base : text; in_content : text }.
Definition load (a : parch) (buf : nat) (tb : list sect) (i : input) : res (list stmt * list line * list sect) :=
  do ls <- read_file buf (in_content i);
  do ms <- init_multilines a ls;
  do q <- init_sections a tb ms;
  Ok (ms, fst q, snd q).
Definition file_of (a : parch) (i : input) (ls : list line) : res gfile :=
  do w <- cblocks_init a ls;
  Ok {| g_lines := fst w; g_blocks := snd w; g_ren := []; g_dir := in_dir i; g_base := in_base i |}.
Definition start (f0 f1 : gfile) : gst := {| s_0 := f0; s_1 := f1; s_out := []; s_nsyms := 0; s_data := false |}.
Definition analyze (o : gopts) (st : gst) : res gst :=
  do st1 <- analyze_var o st;
  do st2 <- analyze_func o st1;
  analyze_other o st2.
(** From the statements on (1776-1785); the output is flushed after the input files
    were closed (1796-1798). *)
Definition gensrc (a : parch) (o : gopts) (buf : nat) (i0 i1 : input) : res text :=
  do l0 <- load a buf predefined i0;
  do l1 <- load a buf (snd l0) i1;
  do f0 <- file_of a i0 (snd (fst l0));
  do f1 <- file_of a i1 (snd (fst l1));
  do st <- analyze o (start f0 f1);
  do st' <- write_cblocks o st;
  do _ <- close_file (fst (fst l0));
  do _ <- close_file (fst (fst l1));
  Ok (s_out st').
(** --dbg-filter, 1763-1770 *)
Definition dbg_filter (a : parch) (o : dopts) (buf : nat) (i : input) : res text :=
  do ls <- read_file buf (in_content i);
  do ms <- init_multilines a ls;
  do t <- debug_filter a o ms;
  do _ <- close_file ms;
  Ok t.
