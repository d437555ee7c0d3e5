(** What it means that two code blocks have the same code; independent of CmpModel. *)
From Coq Require Import String.
From Verif Require Import Base StorageModel TextModel TextSpec ParseModel RenameSpec.
Open Scope list_scope.

(** Two lines whose tokens correspond, one by one *)
Definition same_tokens (m0 m1 : rmap) (s0 s1 : list Z) : Prop :=
  exists ts0 ts1, has_tokens s0 ts0 /\ has_tokens s1 ts1 /\ Forall2 (corresponds m0 m1) ts0 ts1.

(** A line that says nothing about code: empty, or a directive that changes the
    section or makes a symbol global *)
Definition no_code (x : line) : Prop :=
  l_text x = [] \/ In (l_type x) [DText; DData; DBss; DSection; DPushsection; DPopsection; DPrevious; DSubsection; DGlobl].

(** A move of a constant to a register: blanks, mov, one byte, blanks, a dollar, a number,
    a comma, blanks, the register *)
Definition blank_list (s : list Z) : Prop := Forall (fun c => In c [32; 9; 10; 11; 12; 13]) s.
Definition dec_char (c : Z) : Prop := 48 <= c <= 57.
Definition hex_char (c : Z) : Prop := 48 <= c <= 57 \/ 97 <= c <= 102 \/ 65 <= c <= 70.
(** As in C: decimal, octal after a 0, hexadecimal after 0x *)
Definition number (s : list Z) : Prop :=
  (exists c r, s = c :: r /\ 49 <= c <= 57 /\ Forall dec_char r)
  \/ (exists r, s = 48 :: r /\ Forall (fun c => 48 <= c <= 55) r)
  \/ (exists x r, s = 48 :: x :: r /\ In x [120; 88] /\ r <> [] /\ Forall hex_char r).
Definition reg_char (c : Z) : Prop := 48 <= c <= 57 \/ 97 <= c <= 122 \/ 65 <= c <= 90.
Definition moves_number (s reg : list Z) : Prop :=
  exists w1 c w2 w3 sign num w4 r rest,
    s = w1 ++ str "mov" ++ c :: w2 ++ 36 :: w3 ++ sign ++ num ++ 44 :: w4 ++ 37 :: r ++ rest
    /\ blank_list w1 /\ blank_list w2 /\ blank_list w3 /\ blank_list w4
    /\ In sign [[]; [43]; [45]] /\ number num
    /\ r <> [] /\ Forall reg_char r /\ (forall x q, rest = x :: q -> ~ reg_char x) /\ reg = firstn 31 r.

(** The functions that are passed the number of a line, with the register it is in *)
Definition reports_line : list (list Z * list Z) :=
  map (fun x => (str (fst x), str (snd x)))
  [("warn_slowpath_null", "esi"); ("warn_slowpath_fmt", "esi"); ("warn_slowpath_fmt_taint", "esi");
   ("object_dynamic_cast_assert@PLT", "ecx"); ("object_class_dynamic_cast_assert@PLT", "ecx");
   ("error_setg_internal@PLT", "edx"); ("error_setg_errno_internal@PLT", "edx");
   ("g_assertion_message_expr@PLT", "edx"); ("__assert_fail@PLT", "edx"); ("__assert_fail@PLT", "dx")]%string.
(** A call of a function *)
Definition calls (s fn : list Z) : Prop := exists ts, has_tokens s (str "call" :: fn :: ts).

(** What of the surroundings of two blocks counts: whether they are functions or
    variables, their names, the directories of the files, the two maps of renames,
    and the kind of kernel. *)
Record around := { ar_type : btype; ar_nm0 : list Z; ar_nm1 : list Z; ar_dir0 : list Z; ar_dir1 : list Z;
                   ar_m0 : rmap; ar_m1 : rmap; ar_rhel5 : bool }.

(** Lines of a section of traps; [entry] is the beginning of an entry. *)
Definition entry : list Z := str "2:" ++ [9] ++ str ".long 1b - 2b, ".
Definition bug_line (x : line) : Prop :=
  sc_name (l_sect x) = str "__bug_table"
  /\ ((exists r, l_text x = entry ++ r) \/ (exists ts, has_tokens (l_text x) (str ".word" :: ts))).
(** A trap of an old kernel: ud2 and a push and a return *)
Definition old_trap (s : list Z) : Prop := exists ts, has_tokens s (str "ud2" :: str ";" :: str "pushq" :: ts).
(** A string that begins with the directory of its file *)
Definition path_line (dir s rest : list Z) : Prop :=
  exists d t ts, has_tokens s (d :: t :: ts) /\ t = 34 :: dir ++ rest.

(** Differences between two lines of a function, or of a variable, that are let pass
    one by one *)
Definition excused (e : around) (x0 x1 : line) : Prop :=
  match ar_type e with
  | BFunc => if ar_rhel5 e then old_trap (l_text x0) /\ old_trap (l_text x1)
             else bug_line x0 /\ bug_line x1
  | BVar =>
      (exists r, path_line (ar_dir0 e) (l_text x0) r /\ path_line (ar_dir1 e) (l_text x1) r
                 /\ exists ts, has_tokens (l_text x0) (str ".string" :: ts))
      \/ ((exists r, ar_nm0 e = str "descriptor." ++ r) /\ (exists r, ar_nm1 e = str "descriptor." ++ r)
          /\ (exists ts, has_tokens (l_text x0) (str ".byte" :: ts)) /\ (exists ts, has_tokens (l_text x1) (str ".byte" :: ts)))
  | _ => False
  end.
Definition same_section (x0 x1 : line) : Prop :=
  sc_name (l_sect x0) = sc_name (l_sect x1) \/ In (l_type x0) [DLocal; DComm] \/ In (l_type x1) [DLocal; DComm].

(** The blocks have the same code: apart from lines without code, their lines pair up
    in order. *)
Inductive same_code (e : around) : list line -> list line -> Prop :=
| sm_nil : same_code e [] []
| sm_skip0 : forall x l0 l1, no_code x -> same_code e l0 l1 -> same_code e (x :: l0) l1
| sm_skip1 : forall x l0 l1, no_code x -> same_code e l0 l1 -> same_code e l0 (x :: l1)
| sm_comment : forall x0 x1 l0 l1, l_type x0 = DComment -> l_type x1 = DComment -> same_section x0 x1 ->
    same_code e l0 l1 -> same_code e (x0 :: l0) (x1 :: l1)
| sm_same : forall x0 x1 l0 l1, same_section x0 x1 -> same_tokens (ar_m0 e) (ar_m1 e) (l_text x0) (l_text x1) ->
    same_code e l0 l1 -> same_code e (x0 :: l0) (x1 :: l1)
| sm_excused : forall x0 x1 l0 l1, same_section x0 x1 -> excused e x0 x1 ->
    same_code e l0 l1 -> same_code e (x0 :: l0) (x1 :: l1)
| sm_lineno : forall x0 x1 w0 w1 c0 c1 l0 l1 fn reg,
    ar_type e = BFunc -> same_section x0 x1 ->
    moves_number (l_text x0) reg -> moves_number (l_text x1) reg -> In (fn, reg) reports_line ->
    (length w0 <= 14)%nat ->
    Forall2 (fun x y => same_tokens (ar_m0 e) (ar_m1 e) (l_text x) (l_text y)
                        /\ ~ (moves_number (l_text x) reg /\ moves_number (l_text y) reg)) (w0 ++ [c0]) (w1 ++ [c1]) ->
    calls (l_text c0) fn ->
    same_code e l0 l1 -> same_code e (x0 :: w0 ++ c0 :: l0) (x1 :: w1 ++ c1 :: l1).

(** The same for the blocks that are neither functions nor variables, where texts are
    compared as they are and sections are not *)
Inductive same_text : list line -> list line -> Prop :=
| sx_nil : same_text [] []
| sx_skip0 : forall x l0 l1, no_code x -> same_text l0 l1 -> same_text (x :: l0) l1
| sx_skip1 : forall x l0 l1, no_code x -> same_text l0 l1 -> same_text l0 (x :: l1)
| sx_comment : forall x0 x1 l0 l1, l_type x0 = DComment -> l_type x1 = DComment ->
    same_text l0 l1 -> same_text (x0 :: l0) (x1 :: l1)
| sx_same : forall x0 x1 l0 l1, l_text x0 = l_text x1 -> same_text l0 l1 -> same_text (x0 :: l0) (x1 :: l1).
