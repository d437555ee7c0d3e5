(** What the generated file is made of; in terms of the two files, their blocks and
    how these are joined only. *)
From Coq Require Import String DecimalString.
From Verif Require Import Base StorageModel TextModel TextSpec ParseModel RenameModel RenameSpec GenModel GenSpec.
Open Scope list_scope.

(** ** Text *)
(** [e] is what a C program prints of [d] with %s. *)
Definition c_string (d e : list Z) : Prop := ~ In 0 e /\ (d = e \/ exists r, d = e ++ 0 :: r).
(** How a name is printed *)
Definition called (m : rmap) (n e : list Z) : Prop := (m n = None /\ e = n) \/ exists d, m n = Some d /\ c_string d e.
(** A line with its tokens called by their names in [m], all else as it is *)
Definition retold (m : rmap) (s s' : list Z) : Prop :=
  exists l last l', pieces asm_delims s l last
    /\ Forall2 (fun p q => fst q = fst p /\ called m (snd p) (snd q)) l l'
    /\ ((l <> [] /\ s' = glue l' last) \/ (l = [] /\ exists e, called m [] e /\ s' = s ++ e)).
(** What stands behind a statement: a newline when the next is in another line, else a
    semicolon and a blank, else nothing, after a label *)
Definition after_line (s : list Z) (num next : nat) (e : list Z) : Prop :=
  (num <> next /\ e = [10])
  \/ (num = next /\ (exists q c, s = q ++ [c] /\ c <> 58) /\ e = [59; 32])
  \/ (num = next /\ (exists q, s = q ++ [58]) /\ e = []).
Definition number_of (r : list line) (last : nat) : nat := match r with [] => last | y :: _ => l_num y end.
(** Lines in their order, each with its text told as [R] says *)
Inductive printed (R : list Z -> list Z -> Prop) (last : nat) : list line -> list Z -> Prop :=
| pr_nil : printed R last [] []
| pr_cons : forall x r s e t, R (l_text x) s -> after_line s (l_num x) (number_of r last) e -> printed R last r t ->
    printed R last (x :: r) (s ++ e ++ t).
(** The number of the line after a block *)
Definition follower (f : gfile) (b : cblock) : nat :=
  match nth_error (g_lines f) (b_end b) with Some x => l_num x | None => 0%nat end.

(** A directive in a line of its own, a label, a comment *)
Definition line_of (s : string) (e : list Z) : list Z := 9 :: str s ++ e ++ [10].
Definition label_of (n : list Z) : list Z := n ++ [58; 10].
Definition remark (s : string) : list Z := str "#---------- " ++ str s ++ [10].

(** ** Replacement code *)
(** Going to the section in which the code of section [s] is put *)
Definition goes_to (o : gopts) (how : string) (s : sect) (p : list Z) : Prop :=
  match sc_out s with
  | Some n => p = line_of how (str "section " ++ n)
  | None =>
      (sc_exec s = true /\ p = line_of how (str "section .kpatch.text,""ax"",@progbits"))
      \/ (sc_exec s = false /\ exists al, p = line_of how (str "section .kpatch.data,""aw"",@progbits") ++ al
            /\ In al [[]; line_of ".p2align" (9 :: go_shift o)])
  end.
Definition moves_section (d : dir) : Prop := In d [DText; DData; DBss; DPushsection; DSection; DPopsection; DPrevious].
(** A variable without contents gets its own place. *)
Definition placed (o : gopts) (m : rmap) (s p : list Z) : Prop :=
  exists n e sz al h, get_comm_args s = Ok (n, sz, al) /\ called m n e
    /\ goes_to o ".push" (Sect (str ".data") None false None) h
    /\ p = h ++ (if al =? 0 then [] else line_of ".align" (9 :: str (NilZero.string_of_int (Z.to_int al)))) ++ label_of e
           ++ (if sz =? 0 then [] else line_of ".zero" (9 :: str (NilZero.string_of_int (Z.to_int sz)))) ++ line_of ".popsection" [].
(** The lines of a function or variable of the second file, from its first on: each
    directive that changes the section, but the first line, goes to the corresponding
    section; all others are printed with new names, and through the table of offsets
    when [got]. *)
Definition told (m : rmap) (got : bool) (s s' : list Z) : Prop :=
  exists s1, retold m s s1 /\ (if got then str_do_gotpcrel s1 = Ok s' else s' = s1).
Inductive rewritten (o : gopts) (m : rmap) (got : bool) (last : nat) : bool -> list line -> list Z -> Prop :=
| rw_nil : forall first, rewritten o m got last first [] []
| rw_first : forall x r t, moves_section (l_type x) -> rewritten o m got last false r t ->
    rewritten o m got last true (x :: r) t
| rw_sect : forall x r p t, moves_section (l_type x) -> goes_to o "." (l_sect x) p -> rewritten o m got last false r t ->
    rewritten o m got last false (x :: r) (p ++ t)
| rw_comm : forall first x r p t, l_type x = DComm -> placed o m (l_text x) p -> rewritten o m got last false r t ->
    rewritten o m got last first (x :: r) (p ++ t)
| rw_line : forall first x r s e t, ~ moves_section (l_type x) -> l_type x <> DComm -> told m got (l_text x) s ->
    after_line s (l_num x) (number_of r last) e -> rewritten o m got last false r t ->
    rewritten o m got last first (x :: r) (s ++ e ++ t).
(** A function or a variable of the second file, put in a section of the patch *)
Definition replaced (o : gopts) (f : gfile) (m : rmap) (got : bool) (b1 : cblock) (p : list Z) : Prop :=
  exists x h t, nth_error (g_lines f) (b_start b1) = Some x /\ goes_to o ".push" (l_sect x) h
    /\ rewritten o m got (follower f b1) true (blines f b1) t
    /\ p = h ++ (if go_global o then match b_type b1 with BFunc => line_of ".globl" (9 :: txt (b_name b1) ++ str ".kpatch") | _ => [] end else [])
           ++ t ++ match b_type b1 with BFunc => label_of (txt (b_name b1) ++ str ".kpatch_end") | _ => [] end
           ++ line_of ".popsection" [].

(** ** The table of functions *)
(** A directive with its size in bytes *)
Definition field (w : Z) (e : list Z) : Z * list Z :=
  (w, match w with 8 => line_of ".quad " e | 4 => line_of ".long " e | _ => line_of ".byte " e end).
(** A number of 8 bytes that is an address of the program *)
Definition address (o : gopts) (e : list Z) : list (Z * list Z) :=
  if go_32 o then [field 4 e; field 4 (str "0")] else [field 8 e].
(** The entry: address and length of the function of the program, or 0, of that of the
    patch, and its name's place, in the order of struct kpatch_info
    (/repo/src/include/kpatch_file.h:199-208) *)
Definition entry_of (o : gopts) (daddr dlen saddr slen nm : list Z) (known : bool) : list (Z * list Z) :=
  (if known then address o daddr else [field 8 (str "0")]) ++ address o saddr
  ++ [field 4 dlen; field 4 slen] ++ address o nm ++ [field 8 (str "0"); field 4 (str "0"); (4, line_of ".byte " (str "0, 0, 0, 0"))].
(** The number of bytes, and where the n-th directive is *)
Definition bytes_of (l : list (Z * list Z)) : Z := fold_right Z.add 0 (map fst l).
(** The name, its place, the entry; [orig] is the name of the function of the program *)
Definition info_of (o : gopts) (n : Z) (bnm nm : list Z) (orig : option (list Z)) (p : list Z) : Prop :=
  let tab := str "kpatch_strtab" ++ str (NilZero.string_of_int (Z.to_int n)) in
  let es := match orig with
            | Some d => entry_of o d (d ++ str ".Lfe - " ++ d) bnm (nm ++ str ".kpatch_end - " ++ bnm) tab true
            | None => entry_of o [] (str "0") bnm (nm ++ str ".kpatch_end - " ++ bnm) tab false
            end in
  p = line_of ".pushsection .kpatch.strtab,""a"",@progbits" [] ++ label_of tab
      ++ line_of ".string " (34 :: bnm ++ [34]) ++ line_of ".popsection" []
      ++ line_of ".pushsection .kpatch.info,""a"",@progbits" [] ++ label_of (nm ++ str ".Lpi")
      ++ concat (map snd es) ++ line_of ".popsection" [] ++ [10].

(** ** The parts of the file.  The two numbers are those of the last name written before
    and after. *)
Definition function_of (o : gopts) (f : gfile) (m : rmap) (b1 : cblock) (orig : option (list Z)) (n : Z) (p : list Z) : Prop :=
  exists c i bnm, called m (txt (b_name b1)) bnm /\ replaced o f m (go_got o) b1 c
    /\ info_of o (n + 1) bnm (txt (b_name b1)) orig i /\ p = c ++ 10 :: i.
(** A block of the first file *)
Definition has_globl (o : gopts) (st : gst) (b0 : cblock) : Prop :=
  (go_global o = true /\ b_type b0 = BFunc)
  \/ (b_globl b0 = false /\ exists b1, joined st b0 b1 /\ b_globl b1 = true).
Definition original_part (o : gopts) (st : gst) (b0 : cblock) (n n' : Z) (p : list Z) : Prop :=
  match b_type b0 with
  | BFunc | BVar =>
      exists g t q, p = remark (match b_type b0 with BFunc => "func ---------" | _ => "var ---------" end) ++ g ++ t ++ q
        /\ ((has_globl o st b0 /\ exists w, In w [9; 32] /\ g = line_of ".globl" (w :: txt (b_name b0))) \/ (~ has_globl o st b0 /\ g = []))
        /\ printed eq (follower (s_0 st) b0) (blines (s_0 st) b0) t
        /\ ((exists b1 c, b_type b0 = BFunc /\ joined st b0 b1 /\ b_ignore b1 = false /\ b_unlink b1 = false
               /\ function_of o (s_1 st) (rename_find (g_ren (s_1 st))) b1 (Some (txt (b_name b0))) n c /\ n' = n + 1
               /\ q = line_of ".text" [] ++ label_of (txt (b_name b0) ++ str ".Lfe") ++ remark "kpatch begin ---------"
                      ++ c ++ remark "kpatch end -----------")
            \/ (~ (b_type b0 = BFunc /\ exists b1, joined st b0 b1 /\ b_ignore b1 = false /\ b_unlink b1 = false)
                /\ n' = n /\ q = []))
  | _ => n' = n /\ p = []
  end.
(** A block of the second file that is joined with none *)
Definition new_part (o : gopts) (st : gst) (b1 : cblock) (n n' : Z) (p : list Z) : Prop :=
  match b_pair b1, b_type b1 with
  | None, BFunc => exists c, function_of o (s_1 st) (rename_find (g_ren (s_1 st))) b1 None n c
                     /\ n' = n + 1 /\ p = remark "new func ---------" ++ c
  | None, BVar => n' = n /\ replaced o (s_1 st) (rename_find (g_ren (s_1 st))) false b1 p
  | _, _ => n' = n /\ p = []
  end.
(** A function that is to be unlinked, with the names in [m] *)
Definition unlinked_part (o : gopts) (st : gst) (m : rmap) (b1 : cblock) (n n' : Z) (p : list Z) : Prop :=
  if b_unlink b1
  then match b_type b1 with
       | BFunc => exists c, function_of o (s_1 st) m b1 None n c /\ n' = n + 1 /\ p = remark "unlinked func ---------" ++ c
       | _ => n' = n /\ p = []
       end
  else n' = n /\ p = [].
(** Parts one after the other *)
Inductive parts (P : cblock -> Z -> Z -> list Z -> Prop) : list cblock -> Z -> Z -> list Z -> Prop :=
| pa_nil : forall n, parts P [] n n []
| pa_cons : forall b bs n n1 n2 p q, P b n n1 p -> parts P bs n1 n2 q -> parts P (b :: bs) n n2 (p ++ q).

(** The first of the other blocks of the second file comes first. *)
Definition header_part (st : gst) (h : list Z) : Prop :=
  (exists u b v, g_blocks (s_1 st) = u ++ b :: v /\ b_type b = BOther /\ Forall (fun c => b_type c <> BOther) u
     /\ printed eq (follower (s_1 st) b) (blines (s_1 st) b) h)
  \/ (Forall (fun c => b_type c <> BOther) (g_blocks (s_1 st)) /\ h = []).
(** The names of the second file when the functions to be unlinked, and their labels,
    have the suffix as well *)
Definition unlinked_names (st : gst) (m : rmap) : Prop :=
  let gone b1 := In b1 (g_blocks (s_1 st)) /\ b_type b1 = BFunc /\ b_unlink b1 = true in
  (forall n d, rename_find (g_ren (s_1 st)) n = Some d -> m n = Some d)
  /\ (forall n d, m n = Some d -> rename_find (g_ren (s_1 st)) n = Some d
        \/ (d = suffixed n /\ exists b1, gone b1 /\ (n = txt (b_name b1) \/ exists i, nth_label (s_1 st) b1 i n)))
  /\ (forall b1, gone b1 -> m (txt (b_name b1)) = Some (suffixed (txt (b_name b1)))
        /\ forall i n, nth_label (s_1 st) b1 i n -> n = txt (b_name b1) \/ m n = Some (suffixed n)).
(** Attributes of symbols are printed with new names, those of the second file unless
    something of the same name was; the other blocks of the second file as they are. *)
Definition attr0_part (st : gst) (b0 : cblock) (n n' : Z) (p : list Z) : Prop :=
  n' = n /\ match b_type b0 with
            | BAttr => printed (told (rename_find (g_ren (s_0 st))) false) (follower (s_0 st) b0) (blines (s_0 st) b0) p
            | _ => p = []
            end.
Definition attr1_part (st : gst) (m : rmap) (b1 : cblock) (n n' : Z) (p : list Z) : Prop :=
  n' = n /\ (p = [] \/ (b_type b1 = BAttr /\ printed (told m false) (follower (s_1 st) b1) (blines (s_1 st) b1) p)).
Definition other_part (st : gst) (b1 : cblock) (n n' : Z) (p : list Z) : Prop :=
  n' = n /\ (p = [] \/ (b_type b1 = BOther /\ printed eq (follower (s_1 st) b1) (blines (s_1 st) b1) p)).
(** The whole file *)
Definition output_of (o : gopts) (st : gst) (out : list Z) : Prop :=
  exists h p q u a0 a1 x n1 n2 n3 m,
    out = h ++ p ++ q ++ u ++ a0 ++ a1 ++ x
    /\ header_part st h
    /\ parts (original_part o st) (g_blocks (s_0 st)) 0 n1 p
    /\ parts (new_part o st) (g_blocks (s_1 st)) n1 n2 q
    /\ unlinked_names st m
    /\ parts (unlinked_part o st m) (g_blocks (s_1 st)) n2 n3 u
    /\ parts (attr0_part st) (g_blocks (s_0 st)) n3 n3 a0
    /\ parts (attr1_part st m) (g_blocks (s_1 st)) n3 n3 a1
    /\ parts (other_part st) (g_blocks (s_1 st)) n3 n3 x.
(** A block of the first file, as it was *)
Definition as_it_was (o : gopts) (st : gst) (b0 : cblock) (n n' : Z) (p : list Z) : Prop :=
  n' = n /\ match b_type b0 with
  | BFunc | BVar =>
      exists g t, p = remark (match b_type b0 with BFunc => "func ---------" | _ => "var ---------" end) ++ g ++ t
        /\ ((has_globl o st b0 /\ exists w, In w [9; 32] /\ g = line_of ".globl" (w :: txt (b_name b0))) \/ (~ has_globl o st b0 /\ g = []))
        /\ printed eq (follower (s_0 st) b0) (blines (s_0 st) b0) t
  | _ => p = []
  end.
