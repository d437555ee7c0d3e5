(** The verdicts of tests/run_tests.sh: which tests are run, when one is counted as
    passed and with what status the script ends.  Definitions only. *)
From Coq Require Import String Ascii.
From Verif Require Import Base.
Open Scope string_scope.
Open Scope list_scope.
Open Scope Z_scope.
Infix "=s" := String.eqb (at level 70, no associativity).

(** ** grep *)

(** The letters, digits and underscore that grep's [\<] looks at. *)
Definition word_char (c : ascii) : bool :=
  let n := Z.of_nat (nat_of_ascii c) in
  ((48 <=? n) && (n <=? 57)) || ((65 <=? n) && (n <=? 90)) ||
  ((97 <=? n) && (n <=? 122)) || (n =? 95).

Definition low_char (c : ascii) : ascii :=
  let n := Z.of_nat (nat_of_ascii c) in
  if (65 <=? n) && (n <=? 90) then ascii_of_nat (nat_of_ascii c + 32) else c.

Fixpoint low (s : string) : string :=
  match s with
  | EmptyString => EmptyString
  | String c r => String (low_char c) (low r)
  end.

(** Whether [p] is found in [s]; with [w], only where no word character stands
    before it.  [pw]: whether one stands before [s]. *)
Fixpoint found (w pw : bool) (p s : string) : bool :=
  (prefix p s && negb (w && pw)) ||
  match s with
  | EmptyString => false
  | String c r => found w (word_char c) p r
  end.

(** grep -q, with -i when [ci]; the pattern is a plain text, behind [\<] when [w].
    A text here is the list of its lines. *)
Definition grep (ci w : bool) (p : string) (ls : list string) : bool :=
  existsb (fun l => if ci then found w false (low p) (low l) else found w false p l) ls.

(** tail -n. *)
Definition tail_n (n : nat) (ls : list string) : list string :=
  skipn (List.length ls - n) ls.

(** grep_tail, run_tests.sh:78-80. *)
Definition grep_tail (w : bool) (p : string) (out : list string) : bool :=
  grep true w p (tail_n 2 out).

(** The status of a command of the shell. *)
Definition status (b : bool) : Z := if b then 0 else 1.

(** ** The checks *)

(** check_result, run_tests.sh:100-131; the output file exists (mktemp, 469). *)
Definition check_result (name : string) (out : list string) : Z :=
  if name =s "simplest" then status (negb (grep_tail false "UNPATCHED" out))
  else if name =s "fail_unpatch" then status (grep_tail true "PATCHED" out)
  else if prefix "fail_" name then status (grep_tail false "UNPATCHED" out)
  else if name =s "ref_orig_threads" then
    status (grep true false "thread2 (PATCHED)" (tail_n 3 out) &&
            grep true false "thread1 (UNPATCHED)" (tail_n 3 out))
  else if name =s "both" then
    status (grep_tail true "PATCHED shared library" out &&
            grep_tail true "PATCHED binary" out)
  else status (grep_tail true "PATCHED" out).

(** check_result_unpatch, run_tests.sh:169-188, with what test_unpatch_files writes
    before it unpatches (220-221): [before] is the output up to then, [after] that
    at the end. *)
Definition check_result_unpatch (name : string) (before after : list string) : Z :=
  let is_unpatched := status (check_result name after =? 0) in
  let was_patched := status (check_result name before =? 1) in
  if name =s "fail_unpatch"
  then status ((is_unpatched =? 0) && (was_patched =? 1))
  else status ((is_unpatched =? 1) && (was_patched =? 1)).

(** check_result_startup, run_tests.sh:265-278. *)
Definition check_result_startup (name : string) (out : list string) : Z :=
  if (name =s "fail_coro") || prefix "fail_busy_single" name || (name =s "fail_threading")
  then status (grep false true "PATCHED" out)
  else if name =s "fail_busy_threads"
  then status (grep false false "thread1 (UNPATCHED" out &&
               grep false false "thread2 (PATCHED" out)
  else check_result name out.

(** check_result_patchlevel, run_tests.sh:427-451. *)
Definition check_result_patchlevel (name : string) (out : list string) : Z :=
  if negb (name =s "patchlevel") then 1
  else if negb (grep false false "Hello from SEMIPATCHED shared library" out) then 1
  else if negb (grep false false "Welcome from SEMIPATCHED binary" out) then 1
  else if negb (grep false false "Hello from PATCHED shared library" out) then 1
  else if negb (grep false false "Welcome from PATCHED binary" out) then 1
  else 0.

(** CHECK_RESULT, run_tests.sh:99,192,311,389, as the flavor's _init sets it. *)
Definition check (flavor name : string) (before after : list string) : Z :=
  if flavor =s "test_unpatch_files" then check_result_unpatch name before after
  else if (flavor =s "test_patch_startup") || (flavor =s "test_patch_startup_ld_linux")
  then check_result_startup name after
  else if flavor =s "test_patch_patchlevel" then check_result_patchlevel name after
  else check_result name after.

(** ** Which tests are run *)

Definition one_of (name : string) (l : list string) : bool := existsb (String.eqb name) l.

(** should_skip, run_tests.sh:502-557.  [rhel6]: /etc/redhat-release names a
    release 6. *)
Definition should_skip (flavor arch : string) (rhel6 : bool) (name : string) : bool :=
  let unpatch := flavor =s "test_unpatch_files" in
  if (if flavor =s "test_patch_patchlevel" then negb (name =s "patchlevel")
      else name =s "patchlevel") then true
  else if (arch =s "aarch64") &&
     (one_of name ["tls_shared"; "tls_simple"; "ref_glibc_data"; "fail_coro_listed"; "fail_coro"]
      || (unpatch && (name =s "frame_finish"))) then true
  else if (arch =s "riscv64") &&
     (one_of name ["fail_coro_listed"; "fail_coro"; "ref_orig_threads"]
      || (unpatch && (name =s "frame_finish"))) then true
  else if name =s "ifunc" then rhel6
  else if one_of name ["fail_busy_threads"; "fail_busy_single"; "fail_busy_single_top";
                       "fail_coro"; "fail_threading"; "fail_coro_listed"]
  then unpatch
  else false.

(** ** The run *)

(** What a test leaves: the output before and after the unpatching. *)
Definition outputs := (list string * list string)%type.

Record counts := mkCounts
  { nskipped : Z; nfailed : Z; nok : Z; ntotal : Z; FAILED : string }.

(** The loop of main, run_tests.sh:653-666.  [out i]: the outputs of the [i]th test;
    the status of test_one is that of the check (478-479,498), and since it stands
    behind [if !] the shell does not leave (set -e) when a command in it fails. *)
Fixpoint test_loop (flavor arch : string) (rhel6 : bool) (out : nat -> outputs)
    (i : nat) (tests : list string) (c : counts) : counts :=
  match tests with
  | [] => c
  | tst :: r =>
      let c := mkCounts (nskipped c) (nfailed c) (nok c) (ntotal c + 1) (FAILED c) in
      let c :=
        if should_skip flavor arch rhel6 tst then
          mkCounts (nskipped c + 1) (nfailed c) (nok c) (ntotal c) (FAILED c)
        else if negb (check flavor tst (fst (out i)) (snd (out i)) =? 0) then
          mkCounts (nskipped c) (nfailed c + 1) (nok c) (ntotal c)
            (if FAILED c =s "" then tst else (FAILED c ++ " " ++ tst)%string)
        else mkCounts (nskipped c) (nfailed c) (nok c + 1) (ntotal c) (FAILED c) in
      test_loop flavor arch rhel6 out (S i) r c
  end.

(** What getopts gives, run_tests.sh:576-604; [OptBad]: an option that is not known
    or one whose argument is missing. *)
Inductive opt := OptF (s : string) | OptOther | OptBad.

Fixpoint get_flavor (opts : list opt) (flavor : string) : option string :=
  match opts with
  | [] => Some flavor
  | OptF s :: r => get_flavor r s
  | OptOther :: r => get_flavor r flavor
  | OptBad :: _ => None
  end.

Definition flavors : list string :=
  ["test_patch_files"; "test_patch_dir"; "test_patch_startup";
   "test_patch_startup_ld_linux"; "test_unpatch_files"; "test_patch_patchlevel"].

(** The machine: uname -m, /etc/redhat-release, whether /proc/ucare/applist is
    there, whether the server runs a second after its start and at the end, and
    the status of the making of execve.so (298).  /proc/ucare (312) and the applist in
    it (354) are taken to be there together. *)
Record machine := mkMachine
  { arch : string; rhel6 : bool; ucare : bool; up : bool; up_end : bool; make_execve : Z }.

(** How the script ends: before its summary, or with it. *)
Inductive ending := Early (code : Z) | Summary (code : Z) (c : counts).

(** main, run_tests.sh:568-676.  [tests]: the names on the command line or, with
    none, those found.  Not modelled: the other commands of the _init and _fini
    functions, which are taken to succeed, and what is printed. *)
Definition main (m : machine) (opts : list opt) (out : nat -> outputs)
    (tests : list string) : ending :=
  match get_flavor opts "test_patch_files" with
  | None => Early 1
  | Some flavor =>
      if negb (one_of flavor flavors) then Early 1
      else if one_of (arch m) ["aarch64"; "riscv64"; "loongarch64"] &&
              one_of flavor ["test_patch_startup"; "test_patch_startup_ld_linux"]
      then Early 0
      else if negb (up m) then Early 1
      else if (flavor =s "test_patch_startup_ld_linux") && negb (ucare m) then Early 0
      else if (flavor =s "test_patch_startup") && negb (ucare m)
              && negb (make_execve m =? 0)
      then Early (make_execve m)
      else
        let c := test_loop flavor (arch m) (rhel6 m) out 0 tests (mkCounts 0 0 0 0 "") in
        if negb (up_end m) then Early 1
        else Summary (if negb (FAILED c =s "") then 1 else 0) c
  end.

(** wait_file, run_tests.sh:5-24: [ready i] is whether the file has a contents at the
    [i]th look.  The status, and how often it slept. *)
Fixpoint wait_from (ready : nat -> bool) (i left : nat) : Z * nat :=
  match left with
  | O => (1, i)
  | S l => if ready i then (0, i) else wait_from ready (S i) l
  end.
Definition wait_file (ready : nat -> bool) : Z * nat := wait_from ready 0 60.
