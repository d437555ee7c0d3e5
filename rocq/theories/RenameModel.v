(** Renaming symbols and rewriting lines (/repo/src/kpatch_gensrc.c:129-431).
    Definitions only. *)
From Coq Require Import String.
From Verif Require Import Base StorageModel TextModel RbModel.
Open Scope list_scope.

(** ** The table of renames, 131-202: a tree by source name; here the list of its
    elements, at most one for a source (C27, C44). *)
Definition rtab := list (text * text).
(** rename_find, 146-157 *)
Definition rename_find (r : rtab) (n : text) : option text :=
  match find (fun x => same (fst x) n) r with Some x => Some (snd x) | None => None end.
(** rename_add, 159-182 *)
Definition rename_add (r : rtab) (src dst : text) : res rtab :=
  if same src dst then Ok r
  else match rename_find r src with
       | Some d => if same d dst then Ok r else Fatal
       | None => Ok ((src, dst) :: r)
       end.
(** rename_del, 184-194 *)
Definition rename_del (r : rtab) (src : text) : rtab := filter (fun x => negb (same (fst x) src)) r.

(** The same on the tree itself: rename_cmp, 136-144, and rb_search_node,
    rb_insert_node, rb_erase. *)
Definition rename_cmp (x : text * text) (n : text) : Z := kpstrcmp (fst x) n.
Definition tree_find (t : tree (text * text)) (n : text) : option text :=
  match search rename_cmp t n with Some x => Some (snd x) | None => None end.
Definition tree_add (t : tree (text * text)) (src dst : text) : res (tree (text * text)) :=
  if same src dst then Ok t
  else match tree_find t src with
       | Some d => if same d dst then Ok t else Fatal
       | None => match insert rename_cmp t (src, dst) src with Some (t', _) => Ok t' | None => Crash end
       end.
Definition tree_del (t : tree (text * text)) (src : text) : res (tree (text * text)) :=
  match tree_find t src with
  | Some _ => match erase rename_cmp t src with Some t' => Ok t' | None => Crash end
  | None => Ok t
  end.

(** strcmp_after_rename, 204-229: [true] is a difference.  One pair of tokens,
    213-226: *)
Definition tokens_match (r0 r1 : rtab) (t0 t1 : text) : bool :=
  match rename_find r0 t0, rename_find r1 t1 with
  | Some d0, Some d1 => same d0 d1 || (same d0 t1 && same d1 t0)
  | Some d0, None => same d0 t1
  | None, Some _ => false
  | None, None => same t0 t1
  end.
Fixpoint strcmp_after_rename_fuel (n : nat) (r0 r1 : rtab) (s0 s1 : option text) : res bool :=
  match s0, s1 with
  | Some _, Some _ =>
      match n with
      | O => Fuel
      | S n' => let (t0, s0') := get_token s0 in
                let (t1, s1') := get_token s1 in
                if tokens_match r0 r1 (txt t0) (txt t1) then strcmp_after_rename_fuel n' r0 r1 s0' s1'
                else Ok true
      end
  | None, None => Ok false
  | _, _ => Ok true
  end.
Definition strcmp_after_rename (r0 r1 : rtab) (s0 s1 : text) : res bool :=
  strcmp_after_rename_fuel (S (length s0)) r0 r1 (Some s0) (Some s1).

(** str_do_rename, 231-249.  The output buffer, of twice BUFSIZE, is taken to be
    large enough. *)
Fixpoint blanks (s : text) : text :=
  match s with c :: r => if isblank c then c :: blanks r else [] | [] => [] end.
Fixpoint do_rename_fuel (n : nat) (r : rtab) (src : option text) : res text :=
  match src with
  | None => Ok []
  | Some s =>
      match n with
      | O => Fuel
      | S n' => let (t, s') := get_token src in
                let d := match rename_find r (txt t) with Some d => upto_nul d | None => txt t end in
                do q <- do_rename_fuel n' r s';
                Ok (blanks s ++ d ++ blanks (rest t) ++ q)
      end
  end.
Definition str_do_rename (r : rtab) (s : text) : res text := do_rename_fuel (S (length s)) r (Some s).

(** ** Going through the global offset table, 251-431 *)
Definition lower (c : Z) : Z := if (65 <=? c) && (c <=? 90) then c + 32 else c.
(** The last bytes of [t] are [z], case aside (strncasecmp). *)
Definition ends_with (t z : text) : bool :=
  list_eqb (map lower (skipn (length t - length z) t)) (map lower z).
Definition gotpcrel_suffix : text := str "@GOTPCREL(%rip)".
Definition gottpoff_suffix : text := str "@GOTTPOFF(%rip)".
Definition rip_suffix : text := str "(%rip)".
(** is_gotpcrel, is_gottpoff, 257-276 *)
Definition is_got (t : text) : bool :=
  Nat.ltb (length gotpcrel_suffix + 1) (length t)
  && (ends_with t gotpcrel_suffix || ends_with t gottpoff_suffix).
(** is_rax_reference, 318-321 *)
Definition is_rax_reference (t : text) : bool :=
  Nat.ltb 2 (length t) && prefix_of [37] t && (nth (length t - 2) t 0 =? 97).
(** is_global_rip_reference, 326-331 *)
Definition is_global_rip_reference (t : text) : bool :=
  Nat.ltb (length rip_suffix) (length t) && ends_with t rip_suffix && negb (prefix_of (str ".L") t).
(** get_full_reg, 278-315 *)
Definition get_full_reg (t : text) : res text :=
  if Nat.ltb 2 (length t) && prefix_of [37] t
  then
    let prev := nth (length t - 2) t 0 in
    let last := nth (length t - 1) t 0 in
    let generic p l := if Nat.eqb (length t) 3 then Ok (str "%r" ++ [nth 2 t 0])     (* 302-306 *)
                       else Ok (upto_nul (str "%r" ++ [p; l])) in
    if (last =? 104) || (last =? 108) || (last =? 120)                               (* h, l, x: 286-291 *)
    then Ok (str "%r" ++ [prev] ++ str "x")
    else if last =? 100                                                              (* d: 292-301 *)
    then if Nat.eqb (length t) 5 then generic (nth 2 t 0) (nth 3 t 0) else generic prev 0
    else generic prev last
  else Fatal.

(** The operands of a mov, 361-378: the lengths of the tokens up to the comma (or the
    end) are added to the length of the first.  [tokens_len stop n s] is the sum and
    where the pointer is. *)
Fixpoint tokens_len (stop : text) (n : nat) (s : option text) : res (nat * option text) :=
  match n with
  | O => Fuel
  | S n' => let (t, s') := get_token s in
            if same (txt t) stop then Ok (0%nat, s')
            else match s' with
                 | None => Ok (length (txt t), None)
                 | Some _ => do q <- tokens_len stop n' s'; Ok ((length (txt t) + fst q)%nat, snd q)
                 end
  end.
(** The operand: the bytes and, for strstr, all that follows its start *)
Definition operand (stop : text) (n : nat) (s : option text) : res (text * text * option text) :=
  let (t, s') := get_token s in
  do q <- tokens_len stop n s';
  let all := txt t ++ rest t in
  Ok (firstn (length (txt t) + fst q) all, all, snd q).

(** str_do_gotpcrel, 337-431 *)
Definition str_do_gotpcrel (src : text) : res text :=
  let (mov, s) := get_token (Some src) in
  if negb (starts (txt mov) (str "mov")) then Ok src
  else match s with
  | None => Crash                                                     (* strstr(NULL, ..), 351 *)
  | Some s' =>
    if negb (contains s' (str "%rip")) then Ok src
    else if Nat.leb 16 (length (txt mov) - 3) then Ok src             (* 354-356 *)
    else
      let flavor := skipn 3 (txt mov) in
      let n := S (S (length src)) in
      do o1 <- operand (str ",") n s;
      let '(msrc, _, s2) := o1 in
      match s2 with
      | None => Fatal                                                 (* 369-370 *)
      | Some _ =>
        do o2 <- operand [10] n s2;
        let '(mdst, mdst_all, _) := o2 in
        if is_global_rip_reference msrc
        then if is_got msrc then Ok src
             else if contains mdst_all (str "%xmm") then Ok src
             else do aux <- get_full_reg mdst;
                  Ok ([9] ++ str "movq" ++ [9] ++ firstn (length msrc - length rip_suffix) msrc ++ gotpcrel_suffix
                      ++ str ", " ++ aux ++ [10]
                      ++ [9] ++ str "mov" ++ flavor ++ [9] ++ str "(" ++ aux ++ str "), " ++ mdst)
        else if is_global_rip_reference mdst
        then if is_got mdst then Ok src
             else let aux := if is_rax_reference msrc then str "%rbx" else str "%rax" in
                  Ok ([9] ++ str "pushq" ++ [9] ++ aux ++ [10]
                      ++ [9] ++ str "movq" ++ [9] ++ firstn (length mdst - length rip_suffix) mdst ++ gotpcrel_suffix
                      ++ str ", " ++ aux ++ [10]
                      ++ [9] ++ str "mov" ++ flavor ++ [9] ++ msrc ++ str ", (" ++ aux ++ str ")" ++ [10]
                      ++ [9] ++ str "popq" ++ [9] ++ aux)
        else Ok src
      end
  end.
