(** The sleep of the test programs: tests/fastsleep.c, preloaded by
    tests/run_tests.sh:134 before a program that is to be patched.
    Definitions only. *)
From Verif Require Import Base.

(** NSEC_TO_SEC and DENOMINATOR, fastsleep.c:11-12: an int. *)
Definition NSEC : Z := 1000000000.

(** A value of type uint64_t, and one converted to long. *)
Definition wrap64 (x : Z) : Z := x mod 2 ^ 64.
Definition sgn64 (x : Z) : Z :=
  let r := x mod 2 ^ 64 in if r <? 2 ^ 63 then r else r - 2 ^ 64.

(** The value of [mult] before the constructor, fastsleep.c:14. *)
Definition mult0 : Z := NSEC / 10.

(** init_sleeper, fastsleep.c:17-27.  [env]: what atol gives of the text of
    SLEEP_MULT, or that there is none; the finding of the real nanosleep
    (dlsym) is not modelled. *)
Definition init_mult (env : option Z) : Z :=
  match env with
  | None => mult0
  | Some v => let newmult := wrap64 v in
              if newmult <? NSEC / 1000 then mult0 else newmult
  end.

(** struct timespec: seconds and nanoseconds, both long. *)
Definition timespec := (Z * Z)%type.

(** sleep, fastsleep.c:29-38: what the real nanosleep is called with; the result
    of sleep is 0 whatever that gives. *)
Definition fast_sleep (mult t : Z) : timespec :=
  (sgn64 (wrap64 (t * mult) / NSEC), wrap64 (t * mult) mod NSEC).

(** nanosleep, fastsleep.c:40-53: what the real nanosleep is called with, [None]
    where the signed product [req->tv_sec * NSEC_TO_SEC] overflows, which is
    undefined.  The quotient of longs is that of C, towards zero. *)
Definition fast_nanosleep (mult : Z) (req : timespec) : option timespec :=
  let '(s, ns) := req in
  let sec := wrap64 (wrap64 (s * mult) / NSEC
                     + wrap64 (ns * mult) / NSEC / NSEC) in
  let p := s * NSEC in
  if (p <? - 2 ^ 63) || (2 ^ 63 <=? p) then None
  else
    let nsec := wrap64 (wrap64 (Z.quot p NSEC * mult)
                        + wrap64 (ns * mult) / NSEC) in
    Some (sgn64 sec, nsec mod NSEC).

(** What the real nanosleep does with its argument (not code of the project):
    [None] is EINVAL, else the nanoseconds it sleeps. *)
Definition real_nanosleep (ts : timespec) : option Z :=
  let '(s, ns) := ts in
  if (s <? 0) || (ns <? 0) || (NSEC <=? ns) then None else Some (s * NSEC + ns).
