(** C157: the time the test programs sleep. *)
From Verif Require Import Base FastModel FastProofs.
From Coq Require Import ZArith Lia.

(** The factor is the tenth of a second without SLEEP_MULT and with a value from 0
    to a thousandth of a second, else the value itself. *)
Theorem C157_factor : forall v : Z, - 2 ^ 63 <= v < 2 ^ 63 ->
  init_mult None = 100000000 /\
  (0 <= v < 1000000 -> init_mult (Some v) = 100000000) /\
  (1000000 <= v -> init_mult (Some v) = v) /\
  1000000 <= init_mult (Some v) < 2 ^ 64.
Proof.
  intros v V. unfold init_mult, wrap64.
  change (NSEC / 1000) with 1000000. change mult0 with 100000000.
  assert (R := Z.mod_pos_bound v (2 ^ 64) ltac:(lia)).
  split; [reflexivity|]. split; [|split].
  - intros H. rewrite Z.mod_small by lia. destruct (Z.ltb_spec v 1000000); lia.
  - intros H. rewrite Z.mod_small by lia. destruct (Z.ltb_spec v 1000000); lia.
  - destruct (Z.ltb_spec (v mod 2 ^ 64) 1000000); lia.
Qed.

(** A negative SLEEP_MULT is below a thousandth and is not refused. *)
Theorem C157_negative_refuted : exists v,
  - 2 ^ 63 <= v < 1000000 /\ init_mult (Some v) <> 100000000.
Proof. exists (-1). split; [lia|]. vm_compute. discriminate. Qed.

(** sleep sleeps exactly the factor times the seconds, whenever the product fits. *)
Theorem C157_sleep : forall m t : Z,
  0 <= t -> 0 <= m -> t * m < 2 ^ 64 ->
  real_nanosleep (fast_sleep m t) = Some (t * m).
Proof. exact sleep_exact. Qed.

(** With the factor there is when SLEEP_MULT is not set, and the one that
    run_tests.sh sets, that is every call: a tenth of the time, to the nanosecond. *)
Theorem C157_sleep_default : forall t : Z, 0 <= t < 2 ^ 32 ->
  exists n, real_nanosleep (fast_sleep (init_mult None) t) = Some n /\
            10 * n = t * 1000000000.
Proof.
  intros t T. exists (t * 100000000). change (init_mult None) with 100000000.
  split; [|lia]. apply sleep_exact; lia.
Qed.

(** nanosleep sleeps the whole nanoseconds of the scaled request where the factor
    divides a second. *)
Theorem C157_nanosleep : forall m s ns k : Z,
  0 < m -> 1000000000 = k * m -> 0 <= s -> 0 <= ns < 1000000000 ->
  s * 1000000000 < 2 ^ 63 -> s * m + ns < 2 ^ 63 -> ns * m < 2 ^ 63 ->
  exists ts, fast_nanosleep m (s, ns) = Some ts /\
             real_nanosleep ts = Some ((s * 1000000000 + ns) * m / 1000000000).
Proof.
  intros m s ns k M K S N P A B.
  destruct (nano_slept m s ns ltac:(lia) S N P A B) as (ts & E & R).
  exists ts. split; [exact E|]. rewrite R.
  assert (C := no_carry m s ns k M K S N).
  destruct (Z.leb_spec NSEC ((s * m) mod NSEC + (ns * m / NSEC) mod NSEC)); [lia|].
  f_equal. change NSEC with 1000000000. lia.
Qed.

(** With the factor of the tests: every request whose seconds can be counted in
    nanoseconds in a long. *)
Theorem C157_nanosleep_default : forall s ns : Z,
  0 <= s -> s * 1000000000 < 2 ^ 63 -> 0 <= ns < 1000000000 ->
  exists ts, fast_nanosleep (init_mult (Some 100000000)) (s, ns) = Some ts /\
             real_nanosleep ts = Some ((s * 1000000000 + ns) / 10).
Proof.
  intros s ns S P N. change (init_mult (Some 100000000)) with 100000000.
  destruct (C157_nanosleep 100000000 s ns 10) as (ts & E & R); try lia.
  exists ts. split; [exact E|]. rewrite R. f_equal.
  replace 1000000000 with (10 * 100000000) at 2 by lia.
  rewrite Z.div_mul_cancel_r by lia. reflexivity.
Qed.

(** For any other factor it is never more than that, and less by at most a second. *)
Theorem C157_bounds : forall m s ns : Z,
  0 <= m -> 0 <= s -> 0 <= ns < 1000000000 ->
  s * 1000000000 < 2 ^ 63 -> s * m + ns < 2 ^ 63 -> ns * m < 2 ^ 63 ->
  exists ts n, fast_nanosleep m (s, ns) = Some ts /\ real_nanosleep ts = Some n /\
    let want := (s * 1000000000 + ns) * m / 1000000000 in
    n = want \/ n = want - 1000000000.
Proof.
  intros m s ns M S N P A B.
  destruct (nano_slept m s ns M S N P A B) as (ts & E & R).
  do 2 eexists. split; [exact E|]. split; [exact R|]. cbn zeta.
  change 1000000000 with NSEC.
  destruct (NSEC <=? (s * m) mod NSEC + (ns * m / NSEC) mod NSEC); [right|left]; lia.
Qed.

(** The second is lost: nine tenths of 1.5 s are slept as 0.35 s. *)
Theorem C157_carry_refuted : exists m s ns ts,
  init_mult (Some m) = m /\ 0 <= s < 10 /\ 0 <= ns < 1000000000 /\
  fast_nanosleep m (s, ns) = Some ts /\
  real_nanosleep ts = Some 350000000 /\
  (s * 1000000000 + ns) * m / 1000000000 = 1350000000.
Proof. exists 900000000, 1, 500000000, (0, 350000000). vm_compute. intuition discriminate. Qed.

(** A request that nanosleep must refuse with EINVAL is slept: too many nanoseconds,
    and negative seconds, of which come five hundred years. *)
Theorem C157_einval_refuted : exists r1 r2 ts1 ts2 n1 n2,
  let m := init_mult None in
  real_nanosleep r1 = None /\ fast_nanosleep m r1 = Some ts1 /\
  real_nanosleep ts1 = Some n1 /\
  real_nanosleep r2 = None /\ fast_nanosleep m r2 = Some ts2 /\
  real_nanosleep ts2 = Some n2 /\ 500 * 365 * 86400 * 1000000000 < n2.
Proof.
  exists (0, 1000000000), (-1, 0), (0, 100000000), (18446744073, 609551616).
  exists 100000000, 18446744073609551616. vm_compute. intuition discriminate.
Qed.

(** Seconds that a long holds but not in nanoseconds: undefined. *)
Theorem C157_range_refuted : exists s,
  0 <= s < 2 ^ 63 /\ real_nanosleep (s, 0) <> None /\
  fast_nanosleep (init_mult None) (s, 0) = None.
Proof. exists 9223372037. vm_compute. intuition discriminate. Qed.

(** The product of sleep wraps around for a factor that slows down. *)
Theorem C157_wrap_refuted : exists m t n,
  init_mult (Some m) = m /\ 0 <= t < 2 ^ 32 /\
  real_nanosleep (fast_sleep m t) = Some n /\ n < t * 1000000000.
Proof.
  exists 10000000000, 1844674408, 6290448384.
  vm_compute. intuition discriminate.
Qed.

(** Non-vacuity: a second and a half at half speed; the hypotheses of
    [C157_nanosleep] with k = 2. *)
Example C157_case :
  1000000000 = 2 * 500000000 /\
  fast_nanosleep 500000000 (1, 500000000) = Some (0, 750000000) /\
  fast_nanosleep 500000000 (3, 1) = Some (1, 500000000) /\
  fast_sleep 100000000 25 = (2, 500000000) /\
  init_mult (Some 999999) = 100000000 /\ init_mult (Some 1000000) = 1000000.
Proof. vm_compute. intuition reflexivity. Qed.

Print Assumptions C157_factor.
Print Assumptions C157_negative_refuted.
Print Assumptions C157_sleep.
Print Assumptions C157_sleep_default.
Print Assumptions C157_nanosleep.
Print Assumptions C157_nanosleep_default.
Print Assumptions C157_bounds.
Print Assumptions C157_carry_refuted.
Print Assumptions C157_einval_refuted.
Print Assumptions C157_range_refuted.
Print Assumptions C157_wrap_refuted.
