(** Comparing code blocks (/repo/src/kpatch_gensrc.c:528-880).  Definitions only. *)
From Coq Require Import String.
From Verif Require Import Base StorageModel TextModel ParseModel RenameModel.
Open Scope list_scope.

(** lineno_functions, 532-548 *)
Definition lineno_functions : list (text * text) :=
  map (fun x => (str (fst x), str (snd x)))
  [("warn_slowpath_null", "esi"); ("warn_slowpath_fmt", "esi"); ("warn_slowpath_fmt_taint", "esi");
   ("object_dynamic_cast_assert@PLT", "ecx"); ("object_class_dynamic_cast_assert@PLT", "ecx");
   ("error_setg_internal@PLT", "edx"); ("error_setg_errno_internal@PLT", "edx");
   ("g_assertion_message_expr@PLT", "edx"); ("__assert_fail@PLT", "edx"); ("__assert_fail@PLT", "dx")]%string.

(** sscanf(s, " mov%*c $%*i, %%%31[a-zA-Z0-9]", regname), 550-554.  A number is a sign,
    0x and hexadecimal digits, 0 and octal digits, or decimal digits; the end of the
    input before the register, for which sscanf answers EOF, gives no register either
    way (576-579). *)
Definition is_hex (c : Z) : bool := is_digit c || ((97 <=? c) && (c <=? 102)) || ((65 <=? c) && (c <=? 70)).
Definition is_oct (c : Z) : bool := (48 <=? c) && (c <=? 55).
Definition is_alnum (c : Z) : bool := is_digit c || ((97 <=? c) && (c <=? 122)) || ((65 <=? c) && (c <=? 90)).
Fixpoint span (p : Z -> bool) (s : text) : text * text :=
  match s with c :: r => if p c then let (a, b) := span p r in (c :: a, b) else ([], s) | [] => ([], []) end.
Definition scan_int (s : text) : option text :=
  let unsigned r := match r with
                    | 48 :: x :: h :: q => if ((x =? 120) || (x =? 88)) then if is_hex h then Some (snd (span is_hex q)) else None
                                           else Some (snd (span is_oct (x :: h :: q)))
                    | 48 :: q => Some (snd (span is_oct q))
                    | c :: q => if is_digit c then Some (snd (span is_digit q)) else None
                    | [] => None
                    end in
  match skip_space s with
  | c :: r => if (c =? 43) || (c =? 45) then unsigned r else unsigned (c :: r)
  | [] => None
  end.
Definition mov_const_reg (s : text) : option text :=
  let s1 := skip_space s in
  if prefix_of (str "mov") s1
  then match skipn 3 s1 with
       | _ :: s2 => match skip_space s2 with
                    | 36 :: s3 => match scan_int s3 with
                                  | Some (44 :: s4) => match skip_space s4 with
                                                       | 37 :: s5 => match span is_alnum s5 with
                                                                     | ([], _) => None
                                                                     | (r, _) => Some (firstn 31 r)
                                                                     end
                                                       | _ => None
                                                       end
                                  | _ => None
                                  end
                    | _ => None
                    end
       | [] => None
       end
  else None.
(** get_possible_lineno_funcs, 560-582: the set of functions is the list of the
    entries of the table instead of a bit mask *)
Definition possible_funcs (s0 s1 : text) : list (text * text) :=
  match mov_const_reg s0, mov_const_reg s1 with
  | Some a, Some b => if list_eqb a b then filter (fun x => list_eqb (snd x) a) lineno_functions else []
  | _, _ => []
  end.
(** possible_funcs &= ~get_possible_lineno_funcs(s0, s1), 628 *)
Definition minus (p q : list (text * text)) : list (text * text) :=
  filter (fun x => negb (existsb (fun y => list_eqb (fst x) (fst y) && list_eqb (snd x) (snd y)) q)) p.

(** match_lineno_func, 585-663, on the lines behind the two that differ: what is left
    behind the call, when there is one within 15 lines *)
Fixpoint lineno_call (n : nat) (r0 r1 : rtab) (possible : list (text * text)) (l0 l1 : list line)
  : res (option (list line * list line)) :=
  match n, l0, l1 with
  | S n', x0 :: q0, x1 :: q1 =>
      let p := minus possible (possible_funcs (l_text x0) (l_text x1)) in
      match p with
      | [] => Ok None
      | _ =>
          do d <- strcmp_after_rename r0 r1 (l_text x0) (l_text x1);
          if d then Ok None
          else let (t, s) := get_token (Some (l_text x0)) in
               if same (txt t) (str "call")
               then let (fn, _) := get_token s in
                    Ok (if existsb (fun x => same (txt fn) (fst x)) p then Some (q0, q1) else None)
               else lineno_call n' r0 r1 p q0 q1
      end
  | _, _, _ => Ok None
  end.
Definition match_lineno_func (r0 r1 : rtab) (x0 x1 : line) (q0 q1 : list line)
  : res (option (list line * list line)) :=
  match possible_funcs (l_text x0) (l_text x1) with
  | [] => Ok None
  | p => lineno_call 15 r0 r1 p q0 q1
  end.

(** match_build_path, 665-691: the directive of the second line is not looked at (671
    tests the first twice).  [dir] is the directory of the file. *)
Definition match_build_path (dir0 dir1 : text) (s0 s1 : text) : bool :=
  let (a0, e0) := get_token (Some s0) in
  let (_, e1) := get_token (Some s1) in
  same (txt a0) (str ".string")
  && let t0 := txt (fst (get_token e0)) in
     let t1 := txt (fst (get_token e1)) in
     starts t0 [34] && starts t1 [34]
     && starts (tl t0) dir0 && starts (tl t1) dir1
     && same (skipn (length dir0) (tl t0)) (skipn (length dir1) (tl t1)).

(** match_var_descriptor, 694-710 *)
Definition desc_str : text := str "descriptor.".
Definition match_var_descriptor (nm0 nm1 : text) (s0 s1 : text) : bool :=
  starts nm0 desc_str && starts nm1 desc_str
  && same (txt (fst (get_token (Some s0)))) (str ".byte")
  && same (txt (fst (get_token (Some s1)))) (str ".byte").

(** match_bug_on, 749-802 *)
Definition bug5 (s : text) : bool :=
  let (t0, e0) := get_token (Some s) in
  let (t1, e1) := get_token e0 in
  let (t2, e2) := get_token e1 in
  let (_, e3) := get_token_d [32; 9; 44; 59] e2 in
  let (t4, e4) := get_token e3 in
  let (t5, e5) := get_token e4 in
  let (_, e6) := get_token_d [32; 9; 44; 59] e5 in
  same (txt t0) (str "ud2") && same (txt t1) (str ";") && same (txt t2) (str "pushq")
  && same (txt t4) (str ";") && same (txt t5) (str "ret") && match e6 with None => true | Some _ => false end.
(** "2:", a tab, ".long 1b - 2b, ": 18 bytes are compared *)
Definition bug_entry : text := str "2:" ++ [9] ++ str ".long 1b - 2b,".
Definition match_bug_on (rhel5 : bool) (x0 x1 : line) : bool :=
  if rhel5 then bug5 (l_text x0) && bug5 (l_text x1)
  else list_eqb (sc_name (l_sect x0)) (str "__bug_table") && list_eqb (sc_name (l_sect x1)) (str "__bug_table")
       && ((prefix_of (bug_entry ++ [32]) (l_text x0) && prefix_of (bug_entry ++ [32]) (l_text x1))
           || (same (txt (fst (get_token (Some (l_text x0))))) (str ".word")
               && same (txt (fst (get_token (Some (l_text x1))))) (str ".word"))).

(** cblock_cmp_skip, 804-822, on the lines of the block that are left *)
Fixpoint cmp_skip (ls : list line) : list line :=
  match ls with
  | [] => []
  | x :: r => if is_sect_cmd (l_type x) || dir_beq (l_type x) DGlobl || list_eqb (l_text x) [] then cmp_skip r else ls
  end.

(** What a comparison looks at besides the lines: the kind and the names of the
    blocks, the directories and renames of the files, --os. *)
Record cmpenv := { ce_type : btype; ce_nm0 : text; ce_nm1 : text; ce_dir0 : text; ce_dir1 : text;
                   ce_r0 : rtab; ce_r1 : rtab; ce_rhel5 : bool; ce_sect : bool; ce_rename : bool }.
Definition is_local_comm (d : dir) : bool := dir_beq d DLocal || dir_beq d DComm.
(** cblock_cmp, 827-880, on the lines of the two blocks: [true] is a difference.
    [ce_sect] and [ce_rename] are the flags.  match_var_datetime never matches
    (742-745). *)
Fixpoint cmp_fuel (n : nat) (c : cmpenv) (l0 l1 : list line) : res bool :=
  match cmp_skip l0, cmp_skip l1 with
  | [], [] => Ok false
  | [], _ :: _ | _ :: _, [] => Ok true
  | x0 :: q0, x1 :: q1 =>
      match n with
      | O => Fuel
      | S n' =>
          if ce_sect c && negb (list_eqb (sc_name (l_sect x0)) (sc_name (l_sect x1)))
             && negb (is_local_comm (l_type x0)) && negb (is_local_comm (l_type x1))
          then Ok true
          else if dir_beq (l_type x0) DComment && dir_beq (l_type x1) DComment then cmp_fuel n' c q0 q1
          else
            do d <- if ce_rename c then strcmp_after_rename (ce_r0 c) (ce_r1 c) (l_text x0) (l_text x1)
                    else Ok (negb (list_eqb (l_text x0) (l_text x1)));
            if negb d then cmp_fuel n' c q0 q1
            else match ce_type c with
                 | BFunc =>
                     do m <- match_lineno_func (ce_r0 c) (ce_r1 c) x0 x1 q0 q1;
                     match m with
                     | Some (p0, p1) => cmp_fuel n' c p0 p1
                     | None => if match_bug_on (ce_rhel5 c) x0 x1 then cmp_fuel n' c q0 q1 else Ok true
                     end
                 | BVar =>
                     if match_build_path (ce_dir0 c) (ce_dir1 c) (l_text x0) (l_text x1)
                        || match_var_descriptor (ce_nm0 c) (ce_nm1 c) (l_text x0) (l_text x1)
                     then cmp_fuel n' c q0 q1 else Ok true
                 | _ => Ok true
                 end
      end
  end.
Definition cblock_cmp (c : cmpenv) (l0 l1 : list line) : res bool := cmp_fuel (S (length l0)) c l0 l1.
