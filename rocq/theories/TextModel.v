(** Assembler text: strings inside lines, tokens, statements, directives
    (/repo/src/include/kpatch_str.h, kpatch_parse.c, arch/*/arch_parse.c,
    kpatch_io.c).  Definitions only.
    A C string is the list of its bytes without the terminating NUL; a pointer
    into a string is the suffix it points to; [None] is the NULL pointer.
    Lengths and line numbers, C's int, are unbounded here. *)
From Coq Require Import String.
From Verif Require Import Base StorageModel.
Open Scope list_scope.

Definition text := list Z.

(** kpatch_fatal ends the program (include/kpatch_log.h); [Crash] is an access the
    C program has no right to (NULL, before the start of a string, free of a
    pointer malloc did not return); [Fuel] is the bound of a loop of the model
    being exceeded, proved not to happen. *)
Inductive res (A : Type) := Ok (a : A) | Fatal | Crash | Fuel.
Arguments Ok {A}. Arguments Fatal {A}. Arguments Crash {A}. Arguments Fuel {A}.
Definition rbind {A B} (x : res A) (f : A -> res B) : res B :=
  match x with Ok a => f a | Fatal => Fatal | Crash => Crash | Fuel => Fuel end.
Notation "'do' x <- a ; b" := (rbind a (fun x => b)) (at level 200, x pattern, a at level 100, b at level 200).

(** ** kpstr_t, kpatch_str.h:11-14: a piece of a string: its bytes and what follows
    them in the string.  The length is [length txt]. *)
Record kpstr := KStr { txt : text; rest : text }.
Definition kempty : kpstr := KStr [] [].

(** memcmp: the first difference of unsigned bytes among the first [n] *)
Fixpoint memcmp (n : nat) (a b : text) : Z :=
  match n, a, b with
  | S n', x :: a', y :: b' => if x =? y then memcmp n' a' b' else x - y
  | _, _, _ => 0
  end.
(** kpstrncmp, 30-46 *)
Definition kpstrncmp (a b : text) (maxlen : nat) : Z :=
  let r := memcmp (Nat.min (Nat.min (length a) (length b)) maxlen) a b in
  if negb (r =? 0) then r
  else if Nat.ltb (length b) (length a) && Nat.ltb (length b) maxlen then 1
  else if Nat.ltb (length a) (length b) && Nat.ltb (length a) maxlen then -1
  else 0.
(** kpstrcmp, 48-51, kpstrcmpz, 54-59, kpstrncmpz, 62-67 *)
Definition kpstrcmp (a b : text) : Z := kpstrncmp a b (Nat.max (length a) (length b)).
Definition same (a b : text) : bool := kpstrcmp a b =? 0.
Definition starts (a z : text) : bool := kpstrncmp a z (length z) =? 0.

(** isblank and skip_blanks, 71-76 (the C locale) *)
Definition isblank (c : Z) : bool := (c =? 32) || (c =? 9).
Fixpoint skip_blanks (s : text) : text :=
  match s with c :: r => if isblank c then skip_blanks r else s | [] => [] end.

(** strchr(set, c) != NULL for a non-zero c *)
Definition among (c : Z) (set : text) : bool := existsb (Z.eqb c) set.
(** strstr: the position of the first occurrence *)
Fixpoint prefix_of (p s : text) : bool :=
  match p, s with
  | [], _ => true
  | a :: p', b :: s' => (a =? b) && prefix_of p' s'
  | _ :: _, [] => false
  end.
Fixpoint strstr (s p : text) : option nat :=
  if prefix_of p s then Some 0%nat
  else match s with
       | [] => None
       | _ :: r => match strstr r p with Some n => Some (S n) | None => None end
       end.
Definition contains (s p : text) : bool := match strstr s p with Some _ => true | None => false end.

(** ** Tokens, kpatch_parse.c:43-79.
    [quoted]: from behind an opening quote to behind the closing one, 58-60;
    [undelimited]: up to a delimiter, 62. *)
Fixpoint quoted (s : text) : text * text :=
  match s with
  | [] => ([], [])
  | c :: r =>
      if c =? 34 then ([c], r)
      else match r with
           | d :: r' => if c =? 92 then let (a, b) := quoted r' in (c :: d :: a, b)
                        else let (a, b) := quoted r in (c :: a, b)
           | [] => ([c], [])
           end
  end.
Fixpoint undelimited (delim s : text) : text * text :=
  match s with
  | [] => ([], [])
  | c :: r => if among c delim then ([], s)
              else let (a, b) := undelimited delim r in (c :: a, b)
  end.

Definition at_end (s : text) : bool := match s with [] => true | c :: _ => c =? 10 end.

(** __get_token, 43-73: the token and where the caller's pointer goes *)
Definition get_token_d (delim : text) (str : option text) : kpstr * option text :=
  match str with
  | None => (kempty, None)
  | Some s0 =>
      let s := skip_blanks s0 in
      if at_end s then (kempty, None)
      else
        let (t, e) := match s with
                      | c :: r => if c =? 34 then let (a, b) := quoted r in (c :: a, b)
                                  else match undelimited delim s with
                                       | ([], _) => ([c], r)                  (* 64-65 *)
                                       | p => p
                                       end
                      | [] => ([], [])
                      end in
        let e' := skip_blanks e in
        (KStr t e, if at_end e' then None else Some e')
  end.
(** get_token, 75-79: the delimiters are space, tab, newline and  ,;:-+*()[]$ *)
Definition delims : text := [32; 9; 44; 59; 58; 45; 43; 42; 40; 41; 91; 93; 36; 10].
Definition get_token := get_token_d delims.

(** The tokens of a line: what a loop [while (s) get_token(&s, &t)] sees, as in
    strcmp_after_rename and str_do_rename (kpatch_gensrc.c:209-228, 238-248). *)
Fixpoint tokens_fuel (n : nat) (s : option text) : res (list kpstr) :=
  match s with
  | None => Ok []
  | Some _ => match n with
              | O => Fuel
              | S n' => let (t, s') := get_token s in
                        do r <- tokens_fuel n' s'; Ok (t :: r)
              end
  end.
Definition tokens (s : text) : res (list kpstr) := tokens_fuel (S (length s)) (Some s).

(** remove_cold_suffix, 82-90: the search runs over the whole rest of the line *)
Definition remove_cold (k : kpstr) : kpstr :=
  let s := txt k ++ rest k in
  match strstr s (str ".cold") with
  | Some n => KStr (firstn n s) (skipn n s)
  | None => k
  end.

(** trim_crlf, kpatch_str.h:78-90 *)
Fixpoint drop_crlf (s : text) : text :=
  match s with c :: r => if (c =? 10) || (c =? 13) then drop_crlf r else s | [] => [] end.
Definition trim_crlf (s : text) : text := rev (drop_crlf (rev s)).

(** fgets on what is left of a file: the line and the rest.  The buffer holds
    [n] bytes besides the NUL. *)
Fixpoint fgets (n : nat) (s : text) : text * text :=
  match n, s with
  | O, _ => ([], s)
  | _, [] => ([], [])
  | S n', c :: r => if c =? 10 then ([c], r) else let (a, b) := fgets n' r in (c :: a, b)
  end.
Fixpoint fgets_all (n : nat) (buf : nat) (s : text) : res (list text) :=
  match s with
  | [] => Ok []
  | _ => match n with
         | O => Fuel
         | S n' => let (l, s') := fgets buf s in
                   do r <- fgets_all n' buf s'; Ok (trim_crlf (upto_nul l) :: r)
         end
  end.
(** read_file, kpatch_io.c:43-85, of a file that can be read: line 0 is an empty
    line put in front.  [buf] is BUFSIZE - 1, include/kpatch_io.h:12. *)
Definition read_file (buf : nat) (content : text) : res (list text) :=
  do ls <- fgets_all (length content) buf content; Ok ([] :: ls).

(** ** Differences between the architectures, arch/*/arch_parse.c. *)
Record parch := { pa_func : text;            (* the .type attribute of functions *)
                  pa_objs : list text;       (* and of variables *)
                  pa_data : list text;       (* is_data_def *)
                  pa_slash : bool;           (* comments begin with // too *)
                  pa_hot : bool;             (* .LCOLD and .LHOT labels skipped at the head of a block *)
                  pa_cold : bool;            (* .cold removed in recog_func_attr *)
                  pa_set : bool              (* .set begins a variable *) }.
(** arch/x86/arch_parse.c:21-115, 165 *)
Definition px86 : parch :=
  {| pa_func := str "@function"; pa_objs := [str "@object"; str "@gnu_unique_object"];
     pa_data := map str [".ascii"; ".asciz"; ".string"; ".byte"; ".word"; ".short"; ".int"; ".long"; ".quad";
                         ".double"; ".float"; ".single"; ".value"; ".comm"; ".zero"; ".uleb128"; ".sleb128";
                         ".4byte"]%string;
     pa_slash := false; pa_hot := true; pa_cold := true; pa_set := false |}.
(** arch/aarch64/arch_parse.c:42-135, 175-184, 241, 291 *)
Definition parm : parch :=
  {| pa_func := str "%function"; pa_objs := [str "%object"; str "%tls_object"; str "%gnu_unique_object"];
     pa_data := map str [".ascii"; ".asciz"; ".string"; ".string8"; ".string16"; ".string32"; ".string64";
                         ".byte"; ".1byte"; ".dc.b"; ".hword"; ".short"; ".2byte"; ".dc"; ".dc.w"; ".value"; ".octa";
                         ".word"; ".4byte"; ".long"; ".int"; ".dc.l"; ".dc.a"; ".quad"; ".8byte"; ".xword";
                         ".double"; ".dc.d"; ".float"; ".single"; ".dc.s"; ".comm"; ".zero"; ".fill"; ".space";
                         ".skip"; ".uleb128"; ".sleb128"]%string;
     pa_slash := true; pa_hot := false; pa_cold := false; pa_set := true |}.
(** arch/loongarch64/arch_parse.c:9-100, 148 *)
Definition ploong : parch :=
  {| pa_func := str "@function"; pa_objs := [str "@object"; str "@gnu_unique_object"];
     pa_data := map str [".ascii"; ".asciz"; ".string"; ".byte"; ".half"; ".word"; ".dword"; ".long"; ".quad";
                         ".value"; ".comm"; ".zero"; ".space"; ".uleb128"; ".sleb128"; ".8byte"; ".4byte"]%string;
     pa_slash := false; pa_hot := true; pa_cold := true; pa_set := false |}.
(** arch/riscv64/arch_parse.c:23-110 *)
Definition priscv : parch :=
  {| pa_func := str "@function"; pa_objs := [str "@object"; str "@gnu_unique_object"];
     pa_data := map str [".comm"; ".common"; ".string"; ".asciz"; ".byte"; ".2byte"; ".half"; ".short"; ".4byte";
                         ".word"; ".long"; ".8byte"; ".dword"; ".quad"; ".sleb128"; ".uleb128"; ".zero"]%string;
     pa_slash := false; pa_hot := true; pa_cold := true; pa_set := false |}.

(** ** Splitting lines into statements: init_multilines,
    arch/x86/arch_parse.c:197-259 (the others differ in the comment sign only).
    One round of the inner loop, 218-239, with [s] the start of the statement and
    [se] the current position. *)
Definition is_hash (a : parch) (t : text) : bool :=
  same t [35] || (pa_slash a && same t [47; 47]).
Inductive cut := Comment | Cut (piece : text) (next : option text).
Fixpoint statement (a : parch) (n : nat) (s : text) (se : option text) (first : bool) : res cut :=
  match se with
  | None => Ok (Cut s None)
  | Some _ =>
      match n with
      | O => Fuel
      | S n' =>
          let (t, se') := get_token se in
          if is_hash a (txt t) then Ok Comment                                            (* 220-221 *)
          else if same (txt t) [59]                                                       (* 222-225 *)
          then Ok (Cut (firstn (length s - length (txt t ++ rest t)) s) se')
          else match se' with
               | Some (58 :: r) =>
                   if first && negb (list_eqb r [])                                       (* 231-237 *)
                   then Ok (Cut (firstn (length s - length (58 :: r) + 1) s) (Some r))
                   else statement a n' s se' false
               | _ => statement a n' s se' false
               end
      end
  end.
(** The loop over the statements of a line, 214-246: the pieces, and whether each is
    a string of its own (strndup) or a pointer into the line read. *)
Fixpoint statements (a : parch) (n : nat) (s : option text) : res (list (text * bool)) :=
  match s with
  | None | Some [] => Ok []
  | Some s =>
      match n with
      | O => Fuel
      | S n' => do c <- statement a (S (length s)) s (Some s) true;
                match c with
                | Comment => Ok [(s, false)]
                | Cut p s' => do r <- statements a n' s'; Ok ((p, true) :: r)
                end
      end
  end.
(** 212-253.  The pieces of one line, and whether each is a heap block of its own:
    the first piece, when it is the line itself, is.  The fatal error for more
    statements than the array has room for (244-245) and the sizes of the two
    arrays are left out. *)
Definition split_line (a : parch) (s : text) : res (list (text * bool)) :=
  if existsb (fun c => (c =? 59) || (c =? 58)) s
  then do r <- statements a (S (length s)) (Some s);
       Ok (match r with (p, false) :: q => (p, true) :: q | _ => r end)
  else Ok [(s, true)].

(** A statement with the number of the line it came from (f->lines, f->lines_num). *)
Record stmt := { st_text : text; st_num : nat; st_own : bool }.
Fixpoint multilines_from (a : parch) (i : nat) (ls : list text) : res (list stmt) :=
  match ls with
  | [] => Ok []
  | s :: r => do p <- split_line a s;
              do q <- multilines_from a (S i) r;
              Ok (map (fun x => {| st_text := fst x; st_num := i; st_own := snd x |}) p ++ q)
  end.
Definition init_multilines (a : parch) (ls : list text) : res (list stmt) := multilines_from a 0 ls.

(** close_file, kpatch_io.c:100-123: every string but the first is freed. *)
Definition close_file (ls : list stmt) : res unit :=
  if forallb st_own (tl ls) then Ok tt else Crash.

(** ** Directives, include/kpatch_parse.h:18-53, kpatch_parse.c:94-151. *)
Inductive dir := DAlign | DType | DComm | DWeak | DSize | DLabel | DLocalLabel | DGlobl | DLocal | DHidden
  | DProtected | DInternal | DText | DData | DBss | DSection | DPushsection | DPopsection | DSubsection
  | DPrevious | DComment | DSet | DOther | DKpflags.
Scheme Equality for dir.
Definition directives : list (text * dir) :=
  map (fun x => (str (fst x), snd x))
  [(".align", DAlign); (".p2align", DAlign); (".type", DType); (".comm", DComm); (".size", DSize); (".weak", DWeak);
   (".text", DText); (".data", DData); (".bss", DBss); (".section", DSection); (".pushsection", DPushsection);
   (".popsection", DPopsection); (".previous", DPrevious); (".subsection", DSubsection); (".globl", DGlobl);
   (".global", DGlobl); (".local", DLocal); (".hidden", DHidden); (".protected", DProtected);
   (".internal", DInternal); (".set", DSet); (".kpgensrc_flags", DKpflags)]%string.
(** find_ctype, 143-151 *)
Definition find_ctype (t : text) : option dir :=
  match find (fun x => same t (fst x)) directives with Some x => Some (snd x) | None => None end.
(** parse_ctype, arch/x86/arch_parse.c:261-285.  [t.s] of an empty token is the
    empty string. *)
Definition parse_ctype (a : parch) (origs : text) : dir :=
  let s := skip_blanks origs in
  if prefix_of [35] s || (pa_slash a && prefix_of [47; 47] s) then DComment
  else let (t, e) := get_token (Some s) in
       match find_ctype (txt t) with
       | Some d => d
       | None => match e with
                 | Some (58 :: _) => match txt t with
                                     | c :: _ => if is_digit c then DLocalLabel else DLabel
                                     | [] => DLabel
                                     end
                 | _ => DOther
                 end
       end.
(** is_data_def, arch/x86/arch_parse.c:83-115 *)
Definition is_data_def (a : parch) (s : text) : bool :=
  existsb (same (txt (fst (get_token (Some s))))) (pa_data a).

(** get_type_args, kpatch_parse.c:127-141: the name and the attribute; [None] when
    the line is not a .type directive (the arguments are left as they were). *)
Definition get_type_args (s : text) : res (option (kpstr * kpstr)) :=
  let (t, s1) := get_token (Some s) in
  if negb (same (txt t) (str ".type")) then Ok None
  else let (nm, s2) := get_token s1 in
       let (t2, s3) := get_token s2 in
       let (attr, _) := get_token s3 in
       if negb (same (txt t2) (str ",")) then Fatal else Ok (Some (nm, attr)).
(** The second token: [get_token(&s, &nm); get_token(&s, &nm)]. *)
Definition second_token (s : text) : kpstr := fst (get_token (snd (get_token (Some s)))).
