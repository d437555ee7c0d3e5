(** The debug filter (/repo/src/kpatch_dbgfilter.c).  Definitions only. *)
From Coq Require Import String.
From Verif Require Import Base StorageModel TextModel.
Open Scope list_scope.

(** include/kpatch_dbgfilter.h:6-9 *)
Record dopts := { do_eh : bool; do_except : bool; do_cfi : bool; do_newlines : bool }.

Definition first_token (s : text) : text := txt (fst (get_token (Some s))).
(** is_cold_hot, 8-13; is_comment, 16-21; is_loc_cmd, 24-29; is_file_cmd, 32-43;
    is_cfi_cmd, 46-54; is_debug_lbl, 57-63 *)
Definition is_cold_hot (s : text) : bool :=
  starts (first_token s) (str ".LCOLD") || starts (first_token s) (str ".LHOT").
Definition is_comment (s : text) : bool := starts (first_token s) (str "#").
Definition is_loc_cmd (s : text) : bool := same (first_token s) (str ".loc").
Definition is_file_cmd (s : text) : bool :=
  same (first_token s) (str ".file")
  && match snd (get_token (Some s)) with Some (c :: _) => is_digit c | _ => false end.
Definition is_cfi_cmd (s : text) : bool := starts (first_token s) (str ".cfi").
Definition is_debug_lbl (s : text) : bool :=
  existsb (fun p => starts (first_token s) (str p)) [".LBB"; ".LBE"; ".LFB"; ".LCFI"; ".LFE"; ".LVL"]%string.

(** skip_ltext_lbl, 70-85, on the statements from [l] on: with .text first, both l
    and n are incremented, so that the line looked at is the one after the next. *)
Definition skip_ltext_lbl (ls : list stmt) : nat :=
  match ls with
  | [] => 0%nat
  | x :: _ =>
      let n := if same (first_token (st_text x)) (str ".text") then 1%nat else 0%nat in
      match nth_error ls (n + n) with
      | None => 0%nat
      | Some y => if starts (first_token (st_text y)) (str ".Ltext") || starts (first_token (st_text y)) (str ".Letext")
                  then S n else 0%nat
      end
  end.

(** is_section_start, 87-103 *)
Definition is_section_start (a : parch) (s prefix : text) : bool :=
  dir_beq (parse_ctype a s) DSection && starts (txt (second_token s)) prefix.
(** The inner loop of skip_section with is_section_end, 105-125, 132-133: what is
    left behind the section *)
Fixpoint section_rest (a : parch) (ls : list stmt) : list stmt :=
  match ls with
  | [] => []
  | x :: r => match parse_ctype a (st_text x) with
              | DPrevious => r
              | DAlign | DLabel | DLocalLabel => section_rest a r
              | _ => if is_data_def a (st_text x) then section_rest a r else ls
              end
  end.
(** skip_section, 127-136: what is left behind the sections *)
Fixpoint skip_section (a : parch) (n : nat) (prefix : text) (ls : list stmt) : res (list stmt) :=
  match ls with
  | [] => Ok []
  | x :: r =>
      if is_section_start a (st_text x) prefix
      then match n with O => Fuel | S n' => skip_section a n' prefix (section_rest a r) end
      else Ok ls
  end.
Definition skipped (a : parch) (prefix : text) (ls : list stmt) : res nat :=
  do r <- skip_section a (length ls) prefix ls; Ok (length ls - length r)%nat.

(** debug_filter_skip, 154-182: the number of statements to drop *)
Definition debug_filter_skip (a : parch) (o : dopts) (ls : list stmt) : res nat :=
  match ls with
  | [] => Ok 0%nat
  | x :: _ =>
      let s := st_text x in
      if is_cold_hot s || is_comment s || is_loc_cmd s || is_file_cmd s || is_debug_lbl s || (do_cfi o && is_cfi_cmd s)
      then Ok 1%nat
      else if negb (Nat.eqb (skip_ltext_lbl ls) 0) then Ok (skip_ltext_lbl ls)
      else do n <- skipped a (str ".debug_") ls;
           if negb (Nat.eqb n 0) then Ok n
           else do m <- if do_eh o then skipped a (str ".eh_frame") ls else Ok 0%nat;
                if negb (Nat.eqb m 0) then Ok m
                else if do_except o then skipped a (str ".gcc_except_table") ls else Ok 0%nat
  end.

(** What is printed after a statement, 194-197, kpatch_gensrc.c:1333-1336: [next] is the
    line number of the statement after it, 0 behind the end of the file.  For an
    empty string the byte before it is read. *)
Definition separator (s : text) (num next : nat) : res text :=
  if negb (Nat.eqb num next) then Ok [10]
  else match rev s with
       | [] => Crash
       | c :: _ => Ok (if c =? 58 then [] else [59; 32])
       end.
Definition next_num (r : list stmt) : nat := match r with y :: _ => st_num y | [] => 0%nat end.

(** debug_filter, 184-208, on the statements from 1 on: the output file *)
Definition newlines (o : dopts) (n : nat) : text :=
  if do_newlines o then repeat 10 (if Nat.ltb 16 n then 1 else n)%nat else [].
Fixpoint filter_from (a : parch) (o : dopts) (n : nat) (ls : list stmt) : res text :=
  match ls with
  | [] => Ok []
  | x :: r =>
      match n with
      | O => Fuel
      | S n' =>
          do k <- debug_filter_skip a o ls;
          match k with
          | O => do e <- separator (st_text x) (st_num x) (next_num r);
                 do q <- filter_from a o n' r; Ok (st_text x ++ e ++ q)
          | _ => do q <- filter_from a o n' (skipn k ls); Ok (newlines o k ++ q)
          end
      end
  end.
Definition debug_filter (a : parch) (o : dopts) (ls : list stmt) : res text :=
  filter_from a o (length ls) (tl ls).
