(** The judge of kpatch_gensrc's own tests:
    tests/gcc_ge8_gensrc/run_gcc_ge8_gensrc_test.sh, read as a script of bash.
    Definitions only. *)
From Coq Require Import String Ascii.
From Verif Require Import Base TestsModel.
Open Scope string_scope.
Open Scope list_scope.
Open Scope Z_scope.

(** What diff finds: a line of both files, of the first, of the second. *)
Inductive edit := Keep (l : string) | Del (l : string) | Add (l : string).

Definition old_of (es : list edit) : list string :=
  flat_map (fun e => match e with Keep l | Del l => [l] | Add _ => [] end) es.
Definition new_of (es : list edit) : list string :=
  flat_map (fun e => match e with Keep l | Add l => [l] | Del _ => [] end) es.

(** The lines diff prints, without "< " and "> " and without the lines that say
    where: neither can hold a key word. *)
Definition printed (es : list edit) : list string :=
  flat_map (fun e => match e with Keep _ => [] | Del l | Add l => [l] end) es.

(** KEY_WORD, run_gcc_ge8_gensrc_test.sh:24-28; the dot of the pattern is quoted. *)
Definition key_word (casename : string) : string :=
  if casename =s "cold_func_suffix" then ".cold" else casename.

Definition has_key (k l : string) : bool := found false false k l.

(** grep -c. *)
Definition grep_c (k : string) (ls : list string) : Z := zlen (filter (has_key k) ls).

(** sed -i '/^#/d', line 38. *)
Definition no_hash (ls : list string) : list string :=
  filter (fun l => negb (prefix "#" l)) ls.

(** A case: its name and the assembler text of the compiler. *)
Definition gcase := (string * list string)%type.

Inductive verdict := VOk | VFail | VSkip.

(** One turn of the loop, 21-48.  [out]: what the output file of kpatch_gensrc (37)
    holds afterwards, [None] where there is none: then sed and diff only complain,
    and grep counts no line. *)
Definition judge (differ : list string -> list string -> list edit)
    (c : gcase) (out : option (list string)) : verdict :=
  let '(name, src) := c in
  let k := key_word name in
  if grep_c k src <? 2 then VSkip
  else
    let n := match out with
             | None => 0
             | Some o => grep_c k (printed (differ src (no_hash o)))
             end in
    if 0 <? n then VFail else VOk.

Definition tally := (Z * Z * Z)%type.     (* OK_CNT, FAIL_CNT, SKIP_CNT *)

Fixpoint judge_all differ (out : nat -> option (list string)) (i : nat)
    (cs : list gcase) (t : tally) : tally :=
  match cs with
  | [] => t
  | c :: r =>
      let '(ok, fail, skip) := t in
      judge_all differ out (S i) r
        match judge differ c (out i) with
        | VOk => (ok + 1, fail, skip)
        | VFail => (ok, fail + 1, skip)
        | VSkip => (ok, fail, skip + 1)
        end
  end.

(** The script: its status and the counts.  [major], [required]: its arguments; [cs]:
    the files *.orig.s found; [total]: how many sub_desc there are. *)
Definition gcc_test (major required : Z) (total : Z) differ out (cs : list gcase)
    : Z * tally :=
  if major <? required then (0, (0, 0, total))
  else
    let t := judge_all differ out 0%nat cs (0, 0, 0) in
    (if negb (snd (fst t) =? 0) then 1 else 0, t).
