(** Proofs about tests/fastsleep.c. *)
From Verif Require Import Base FastModel.
From Coq Require Import ZArith Lia.

Lemma wrap64_id x : 0 <= x < 2 ^ 64 -> wrap64 x = x.
Proof. apply Z.mod_small. Qed.

Lemma sgn64_id x : 0 <= x < 2 ^ 63 -> sgn64 x = x.
Proof.
  intros H. unfold sgn64. rewrite Z.mod_small by lia.
  destruct (Z.ltb_spec x (2 ^ 63)); lia.
Qed.

Lemma div_nsec x : 0 <= x < 2 ^ 64 -> 0 <= x / NSEC < 2 ^ 35.
Proof.
  intros H. unfold NSEC. split; [apply Z.div_pos; lia|].
  apply Z.div_lt_upper_bound; lia.
Qed.

Lemma mod_nsec x : 0 <= x mod NSEC < NSEC.
Proof. apply Z.mod_pos_bound. unfold NSEC; lia. Qed.

Lemma real_valid s ns :
  0 <= s -> 0 <= ns < NSEC -> real_nanosleep (s, ns) = Some (s * NSEC + ns).
Proof.
  intros A B. cbn. destruct (Z.ltb_spec s 0); [lia|].
  destruct (Z.ltb_spec ns 0); [lia|]. destruct (Z.leb_spec NSEC ns); [lia|].
  reflexivity.
Qed.

Lemma sleep_exact m t :
  0 <= t -> 0 <= m -> t * m < 2 ^ 64 ->
  real_nanosleep (fast_sleep m t) = Some (t * m).
Proof.
  intros A B C. unfold fast_sleep.
  assert (0 <= t * m) by nia.
  rewrite wrap64_id by lia.
  assert (D := div_nsec (t * m) ltac:(lia)). assert (E := mod_nsec (t * m)).
  rewrite sgn64_id by lia. rewrite real_valid by lia. f_equal.
  rewrite (Z.div_mod (t * m) NSEC) at 3 by (unfold NSEC; lia). lia.
Qed.

(** The sum of the two parts. *)
Lemma nano_parts m s ns :
  0 <= m -> 0 <= s -> 0 <= ns < NSEC ->
  s * NSEC < 2 ^ 63 -> s * m + ns < 2 ^ 63 -> ns * m < 2 ^ 63 ->
  let a := s * m in let b := ns * m / NSEC in
  fast_nanosleep m (s, ns) = Some (a / NSEC + b / NSEC, (a + b) mod NSEC) /\
  0 <= a < 2 ^ 63 /\ 0 <= b < 2 ^ 35.
Proof.
  intros M S N P A B a b.
  assert (A0 : 0 <= a) by (unfold a; nia).
  assert (N0 : 0 <= ns * m) by nia.
  assert (B1 : 0 <= b < 2 ^ 35) by (unfold b; apply div_nsec; lia).
  assert (A1 : a < 2 ^ 63) by (unfold a; lia).
  assert (D1 := div_nsec a ltac:(lia)). assert (D2 := div_nsec b ltac:(lia)).
  unfold fast_nanosleep. fold a.
  rewrite (wrap64_id a) by lia. rewrite (wrap64_id (ns * m)) by lia. fold b.
  rewrite (wrap64_id (a / NSEC + b / NSEC)) by lia.
  destruct (Z.ltb_spec (s * NSEC) (- 2 ^ 63)); [unfold NSEC in *; lia|].
  destruct (Z.leb_spec (2 ^ 63) (s * NSEC)); [lia|]. cbn [orb].
  rewrite Z.quot_mul by (unfold NSEC; lia). fold a.
  rewrite (wrap64_id a) by lia. rewrite (wrap64_id (a + b)) by lia.
  rewrite sgn64_id by lia. repeat split; lia.
Qed.

(** The time that should be slept: the whole nanoseconds of the scaled request. *)
Lemma scaled_sum m s ns : (s * NSEC + ns) * m / NSEC = s * m + ns * m / NSEC.
Proof.
  replace ((s * NSEC + ns) * m) with (ns * m + (s * m) * NSEC) by ring.
  rewrite Z.div_add by (unfold NSEC; lia). ring.
Qed.

Lemma carry_div a b n : 0 < n -> 0 <= a -> 0 <= b ->
  (a + b) / n = a / n + b / n + (if n <=? a mod n + b mod n then 1 else 0).
Proof.
  intros N A B.
  assert (Ea := Z.div_mod a n ltac:(lia)). assert (Eb := Z.div_mod b n ltac:(lia)).
  assert (Ma := Z.mod_pos_bound a n N). assert (Mb := Z.mod_pos_bound b n N).
  symmetry.
  destruct (Z.leb_spec n (a mod n + b mod n)).
  - apply Z.div_unique_pos with (a mod n + b mod n - n); [lia|]. nia.
  - apply Z.div_unique_pos with (a mod n + b mod n); [lia|]. nia.
Qed.

Lemma nano_slept m s ns :
  0 <= m -> 0 <= s -> 0 <= ns < NSEC ->
  s * NSEC < 2 ^ 63 -> s * m + ns < 2 ^ 63 -> ns * m < 2 ^ 63 ->
  exists ts, fast_nanosleep m (s, ns) = Some ts /\
  real_nanosleep ts =
  Some ((s * NSEC + ns) * m / NSEC
        - (if NSEC <=? (s * m) mod NSEC + (ns * m / NSEC) mod NSEC then NSEC else 0)).
Proof.
  intros M S N P A B.
  destruct (nano_parts m s ns M S N P A B) as (E & A1 & B1).
  set (a := s * m) in *. set (b := ns * m / NSEC) in *.
  eexists. split; [exact E|].
  assert (D1 := div_nsec a ltac:(lia)). assert (D2 := div_nsec b ltac:(lia)).
  assert (Q := mod_nsec (a + b)).
  rewrite real_valid by lia. f_equal.
  rewrite scaled_sum. fold a b.
  rewrite (Z.div_mod (a + b) NSEC) at 2 by (unfold NSEC; lia).
  rewrite (carry_div a b NSEC) by (unfold NSEC in *; lia).
  destruct (NSEC <=? a mod NSEC + b mod NSEC); lia.
Qed.

(** No carry where the factor divides a second. *)
Lemma no_carry m s ns k :
  0 < m -> NSEC = k * m -> 0 <= s -> 0 <= ns < NSEC ->
  (s * m) mod NSEC + (ns * m / NSEC) mod NSEC < NSEC.
Proof.
  intros M K S N.
  assert (Kp : 0 < k) by (unfold NSEC in *; nia).
  assert (X : (s * m) mod NSEC <= NSEC - m).
  { rewrite K. rewrite Z.mul_mod_distr_r by lia.
    assert (s mod k < k) by (apply Z.mod_pos_bound; lia). nia. }
  assert (Y : 0 <= ns * m / NSEC < m).
  { split; [apply Z.div_pos; unfold NSEC in *; nia|].
    apply Z.div_lt_upper_bound; [unfold NSEC; lia|]. nia. }
  assert (m <= NSEC) by nia.
  rewrite (Z.mod_small (ns * m / NSEC)) by lia. lia.
Qed.
