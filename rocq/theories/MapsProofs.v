(** Proofs about the text of /proc/pid/maps. *)
From Coq Require Import String ZifyBool.
From Verif Require Import Base BaseProofs StorageModel CliSpec ProcModel MapsModel MapsSpec.
Open Scope list_scope.

(** ** Numbers *)

Lemma hex_digit_val c d : hex_digit c d -> hex_val c = Some d /\ 0 <= d < 16 /\ is_space c = false
  /\ c <> 45 /\ c <> 43 /\ c <> 120 /\ c <> 88 /\ c <> 0 /\ c <> 10.
Proof.
  unfold hex_digit, hex_val, is_space. intros H.
  repeat split; try lia.
  destruct H as [[? ->]|[? ->]].
  - replace ((48 <=? c) && (c <=? 57)) with true by lia. reflexivity.
  - replace ((48 <=? c) && (c <=? 57)) with false by lia.
    replace ((97 <=? c) && (c <=? 102)) with true by lia. reflexivity.
Qed.

Lemma hex_of_cons s v : hex_of s v -> exists c r, s = c :: r /\ exists d, hex_digit c d.
Proof. induction 1 as [c d H|s v c d H (c' & r & -> & d' & H') H2]; cbn; eauto 8. Qed.
Lemma hex_of_pos s v : hex_of s v -> 0 <= v.
Proof. induction 1 as [c d H|s v c d H IH H2]; [apply hex_digit_val in H|apply hex_digit_val in H2]; lia. Qed.
Lemma hex_of_all s v : hex_of s v -> Forall (fun c => exists d, hex_digit c d) s.
Proof. induction 1; [eauto|]. apply Forall_app; split; eauto. Qed.

Lemma scan_digits_hex s v : hex_of s v -> forall rest n v0,
  scan_digits 16 (s ++ rest) n v0
  = scan_digits 16 rest (n + length s) (v0 * 16 ^ zlen s + v).
Proof.
  induction 1 as [c d H|s v c d H IH H2]; intros rest n v0.
  - apply hex_digit_val in H as (E & L & _). cbn [app scan_digits length]. rewrite E.
    replace (d <? 16) with true by lia. f_equal; [lia|]. change (16 ^ zlen [c]) with 16. lia.
  - rewrite <- app_assoc, IH. apply hex_digit_val in H2 as (E & L & _).
    cbn [app scan_digits]. rewrite E. replace (d <? 16) with true by lia.
    unfold zlen. rewrite app_length. cbn [length]. f_equal; [lia|].
    rewrite Nat2Z.inj_add, Z.pow_add_r by lia. change (16 ^ Z.of_nat 1) with 16. lia.
Qed.

Lemma scan_hex_ok pre s v c r : (pre = [] \/ pre = [32]) -> hex_of s v -> 0 <= v < 2 ^ 64 ->
  hex_val c = None -> c <> 120 -> c <> 88 -> scan_hex (pre ++ s ++ c :: r) = Some (v, c :: r).
Proof.
  intros P H L NC N1 N2. unfold scan_hex.
  assert (SK : skip_space (pre ++ s ++ c :: r) = s ++ c :: r).
  { destruct (hex_of_cons _ _ H) as (c0 & r0 & -> & d & H0). apply hex_digit_val in H0.
    destruct P as [->| ->]; cbn [app skip_space].
    - now replace (is_space c0) with false by (symmetry; tauto).
    - change (is_space 32) with true. cbv iota. now replace (is_space c0) with false by (symmetry; tauto). }
  rewrite SK. clear SK P pre.
  assert (SG : scan_sign (s ++ c :: r) = (false, s ++ c :: r)).
  { destruct (hex_of_cons _ _ H) as (c0 & r0 & -> & d & H0). apply hex_digit_val in H0.
    cbn [app scan_sign]. replace (c0 =? 45) with false by lia. now replace (c0 =? 43) with false by lia. }
  rewrite SG.
  assert (PX : match s ++ c :: r with
               | 48 :: x :: r' => if (x =? 120) || (x =? 88) then r' else s ++ c :: r
               | _ => s ++ c :: r end = s ++ c :: r).
  { pose proof (hex_of_all _ _ H) as AL.
    destruct s as [|c0 [|c1 s]].
    - now apply hex_of_cons in H as (? & ? & ? & _).
    - cbn [app]. destruct c0 as [|p|p]; try reflexivity.
      do 6 (destruct p as [p|p|]; try reflexivity).
      replace ((c =? 120) || (c =? 88)) with false by lia. reflexivity.
    - inversion_clear AL as [|? ? _ AL2]. inversion_clear AL2 as [|? ? [d HD] _].
      apply hex_digit_val in HD.
      cbn [app]. destruct c0 as [|p|p]; try reflexivity.
      do 6 (destruct p as [p|p|]; try reflexivity).
      replace ((c1 =? 120) || (c1 =? 88)) with false by lia. reflexivity. }
  rewrite PX, (scan_digits_hex _ _ H). cbn [scan_digits]. rewrite NC.
  destruct (hex_of_cons _ _ H) as (c0 & r0 & -> & _). cbn [length Nat.add Nat.eqb].
  replace (2 ^ 64 <=? 0 * 16 ^ zlen (c0 :: r0) + v) with false by lia. do 2 f_equal.
Qed.

Lemma scan_x_ok pre s v c r : (pre = [] \/ pre = [32]) -> hex_of s v -> 0 <= v < 2 ^ 32 ->
  hex_val c = None -> c <> 120 -> c <> 88 -> scan_x (pre ++ s ++ c :: r) = Some (v, c :: r).
Proof.
  intros P H L NC N1 N2. unfold scan_x. rewrite (scan_hex_ok pre s v c r P H) by (auto; lia).
  now rewrite Z.mod_small by lia.
Qed.

Lemma scan_hex0 s v c r : hex_of s v -> 0 <= v < 2 ^ 64 -> hex_val c = None -> c <> 120 -> c <> 88 ->
  scan_hex (s ++ c :: r) = Some (v, c :: r).
Proof. exact (fun H => scan_hex_ok [] s v c r (or_introl eq_refl) H). Qed.
Lemma scan_hex1 s v c r : hex_of s v -> 0 <= v < 2 ^ 64 -> hex_val c = None -> c <> 120 -> c <> 88 ->
  scan_hex (32 :: s ++ c :: r) = Some (v, c :: r).
Proof. exact (fun H => scan_hex_ok [32] s v c r (or_intror eq_refl) H). Qed.
Lemma scan_x0 s v c r : hex_of s v -> 0 <= v < 2 ^ 32 -> hex_val c = None -> c <> 120 -> c <> 88 ->
  scan_x (s ++ c :: r) = Some (v, c :: r).
Proof. exact (fun H => scan_x_ok [] s v c r (or_introl eq_refl) H). Qed.
Lemma scan_x1 s v c r : hex_of s v -> 0 <= v < 2 ^ 32 -> hex_val c = None -> c <> 120 -> c <> 88 ->
  scan_x (32 :: s ++ c :: r) = Some (v, c :: r).
Proof. exact (fun H => scan_x_ok [32] s v c r (or_intror eq_refl) H). Qed.

Lemma scan_digits_dec s : Forall (fun c => 48 <= c <= 57) s -> forall rest n v0,
  scan_digits 10 (s ++ rest) n v0
  = scan_digits 10 rest (n + length s) (fold_left (fun a c => 10 * a + (c - 48)) s v0).
Proof.
  induction s as [|c s IH]; intros F rest n v0.
  - cbn. now rewrite Nat.add_0_r.
  - inversion_clear F as [|? ? L F']. cbn [app scan_digits].
    unfold hex_val. replace ((48 <=? c) && (c <=? 57)) with true by lia.
    replace (c - 48 <? 10) with true by lia. rewrite (IH F'). cbn [length fold_left].
    now rewrite Nat.add_succ_r.
Qed.

Lemma scan_d_ok s v r : numeral s v -> 0 <= v < 2 ^ 63 ->
  scan_d (32 :: s ++ 32 :: r) = Some (v mod 2 ^ 32, 32 :: r).
Proof.
  intros (NE & F & V & _) L. unfold scan_d. cbn [skip_space].
  change (is_space 32) with true. cbv iota.
  destruct s as [|c s]; [easy|]. inversion_clear F as [|? ? LC F'].
  cbn [app skip_space]. replace (is_space c) with false by (unfold is_space; lia).
  cbn [scan_sign]. replace (c =? 45) with false by lia. replace (c =? 43) with false by lia.
  change (c :: s ++ 32 :: r) with ((c :: s) ++ 32 :: r).
  rewrite scan_digits_dec by auto. cbn [scan_digits]. change (hex_val 32) with (@None Z). cbv iota.
  cbn [length Nat.add Nat.eqb]. unfold value in V. rewrite V.
  now rewrite Z.min_r by lia.
Qed.

(** ** Words *)

Lemma word_stop k w r : Forall (fun c => is_space c = false) w -> (length w <= k)%nat ->
  (r = [] \/ length w = k \/ exists c q, r = c :: q /\ is_space c = true) ->
  word k (w ++ r) = (w, r).
Proof.
  revert k. induction w as [|c w IH]; intros k F L R.
  - cbn [app]. destruct k as [|k]; [reflexivity|].
    destruct R as [->|[R|(c & q & -> & S)]]; [reflexivity|easy|]. cbn. now rewrite S.
  - destruct k as [|k]; [cbn in L; lia|]. inversion_clear F as [|? ? S F'].
    cbn [app word]. rewrite S, IH; [reflexivity|auto|cbn in L; lia|].
    destruct R as [R|[R|R]]; [auto|right; left; cbn in R; lia|auto].
Qed.

(** The first [k] characters up to white space *)
Lemma word_split k s : exists w r, s = w ++ r /\ word k s = (w, r) /\
  Forall (fun c => is_space c = false) w /\ (length w <= k)%nat /\
  (r = [] \/ length w = k \/ exists c q, r = c :: q /\ is_space c = true).
Proof.
  revert k. induction s as [|c s IH]; intros k.
  - exists [], []. destruct k; cbn; (repeat split; [auto|lia|auto]).
  - destruct k as [|k].
    + exists [], (c :: s). cbn. repeat split; auto.
    + cbn [word]. destruct (is_space c) eqn:S.
      * exists [], (c :: s). cbn. repeat split; [auto|lia|eauto 6].
      * destruct (IH k) as (w & r & -> & E & F & L & R). rewrite E.
        exists (c :: w), r. cbn. repeat split; [auto|lia|].
        destruct R as [R|[R|R]]; [auto|right; left; lia|auto].
Qed.

Lemma skip_spaces pad r : Forall (fun c => c = 32) pad -> skip_space (pad ++ r) = skip_space r.
Proof. induction 1 as [|? ? -> _ IH]; [reflexivity|]. cbn. exact IH. Qed.

Lemma upto_nul_none s : ~ In 0 s -> upto_nul s = s.
Proof.
  induction s as [|c s IH]; [reflexivity|]. cbn. intros N.
  destruct (Z.eqb_spec c 0); [subst; tauto|]. now rewrite IH by tauto.
Qed.

Lemma zlen_app {A} (a b : list A) : zlen (a ++ b) = zlen a + zlen b.
Proof. unfold zlen. rewrite app_length. lia. Qed.

(** ** A line *)

Lemma access_word a : exists c1 c2 c3 c4, access a = [c1; c2; c3; c4] /\
  Forall (fun c => is_space c = false /\ c <> 0 /\ c <> 10) [c1; c2; c3; c4] /\
  perms2prot [c1; c2; c3; c4]
  = Some ((if a_read a then 1 else 0) + (if a_write a then 2 else 0) + (if a_exec a then 4 else 0)).
Proof.
  unfold access, letter. destruct (a_read a), (a_write a), (a_exec a), (a_shared a);
    (eexists _, _, _, _; split; [cbv; reflexivity|split; [|reflexivity]]);
    repeat (apply Forall_cons; [split; [reflexivity|split; lia]|]); apply Forall_nil.
Qed.

Lemma not_in_hex s v c : hex_of s v -> (c = 0 \/ c = 10) -> ~ In c s.
Proof.
  intros H C I. apply hex_of_all in H. rewrite Forall_forall in H.
  destruct (H _ I) as [d D]. apply hex_digit_val in D. lia.
Qed.

Lemma line_chars a t : area_ok a -> line_of a t -> ~ In 0 t /\
  exists b, t = b ++ [10] /\ ~ In 10 b.
Proof.
  intros (_ & _ & _ & _ & _ & _ & P0 & P10 & _) (s & e & o & mj & mn & i & pad & HS & HE & HO & HJ & HN & HI & HP & ->).
  destruct (access_word a) as (c1 & c2 & c3 & c4 & -> & F & _).
  assert (I : forall c, c = 0 \/ c = 10 -> ~ In c (a_path a) ->
     ~ In c (s ++ str "-" ++ e ++ str " " ++ [c1; c2; c3; c4] ++ str " " ++ o ++ str " " ++ mj
        ++ str ":" ++ mn ++ str " " ++ i ++ str " " ++ pad ++ a_path a)).
  { intros c C NP IN. rewrite !in_app_iff in IN.
    rewrite Forall_forall in F, HP. destruct HI as (_ & FI & _). rewrite Forall_forall in FI.
    repeat destruct IN as [IN|IN];
      try solve [eapply not_in_hex; [|exact C|exact IN]; eassumption];
      try (apply F in IN; destruct IN as (_ & ? & ?); lia); try (apply FI in IN; lia); try (apply HP in IN; lia);
      try (cbn in IN; lia); auto;
      (destruct (F c) as (_ & ? & ?); [cbn; auto|lia]). }
  split.
  - intros IN. apply (I 0); auto. rewrite !app_assoc in IN. apply in_app_iff in IN as [IN|IN].
    + now rewrite <- !app_assoc in IN.
    + cbn in IN. lia.
  - eexists. split; [|apply (I 10); auto]. now rewrite <- !app_assoc.
Qed.

Lemma fgets_line k b rest : ~ In 10 b -> (length b < k)%nat ->
  fgets k (b ++ [10] ++ rest) = (b ++ [10], rest).
Proof.
  revert k. induction b as [|c b IH]; intros k N L; (destruct k as [|k]; [cbn in L; lia|]).
  - reflexivity.
  - cbn [app fgets]. cbn in N, L. destruct (Z.eqb_spec c 10); [tauto|].
    change (b ++ 10 :: rest) with (b ++ [10] ++ rest). rewrite IH; [reflexivity|tauto|lia].
Qed.

Lemma perms_testbits (r w x : bool) :
  let p := (if r then 1 else 0) + (if w then 2 else 0) + (if x then 4 else 0) in
  Z.testbit p 0 = r /\ Z.testbit p 1 = w /\ Z.testbit p 2 = x /\ 0 <= p < 8.
Proof. destruct r, w, x; cbv; repeat split; intros; discriminate. Qed.

Lemma scan_line_ok a t : area_ok a -> line_of a t ->
  exists l, scan_line t = LOk l (a_off a) /\ says a (l, a_off a) /\
            l_dev l = makedev (a_major a) (a_minor a).
Proof.
  intros OK LO. destruct (line_chars a t OK LO) as [N0 _].
  destruct OK as (LS & LE & LF & LJ & LN & LI & _ & _ & PH).
  destruct LO as (s & e & o & mj & mn & i & pad & HS & HE & HO & HJ & HN & HI & HP & T).
  destruct (access_word a) as (c1 & c2 & c3 & c4 & EA & FA & PP). rewrite EA in T.
  change (str "-") with [45] in T. change (str " ") with [32] in T. change (str ":") with [58] in T.
  cbn [app] in T. unfold scan_line. rewrite upto_nul_none by exact N0. clear N0.
  destruct (hex_of_cons _ _ HS) as (c0 & s0 & ES & d0 & D0). apply hex_digit_val in D0.
  assert (SK : exists x y, skip_space t = x :: y).
  { rewrite T, ES. cbn [app skip_space]. replace (is_space c0) with false by (symmetry; tauto). eauto. }
  destruct SK as (x & y & ->).
  subst t.
  rewrite (scan_hex0 s (a_start a) 45 _ HS) by (auto; lia).
  cbn [scan_c]. rewrite Z.eqb_refl. cbv iota beta.
  rewrite (scan_hex0 e (a_end a) 32 _ HE) by (auto; lia).
  unfold scan_s at 1. cbn [skip_space]. change (is_space 32) with true. cbv iota.
  inversion_clear FA as [|? ? F1 FA1]. inversion_clear FA1 as [|? ? F2 FA2].
  inversion_clear FA2 as [|? ? F3 FA3]. inversion_clear FA3 as [|? ? F4 _].
  replace (is_space c1) with false by (symmetry; tauto).
  match goal with |- context [word ?k (c1 :: c2 :: c3 :: c4 :: ?z)] =>
    pose proof (word_stop k [c1; c2; c3; c4] z) as W; cbn [app] in W; rewrite W; clear W end.
  2: { repeat constructor; tauto. }
  2: { cbn [length]. lia. }
  2: { right; right. eauto. }
  cbv iota beta. change (4 <? zlen [c1; c2; c3; c4]) with false. cbv iota.
  rewrite (scan_hex1 o (a_off a) 32 _ HO) by (auto; lia).
  rewrite (scan_x1 mj (a_major a) 58 _ HJ) by (auto; lia).
  cbn [scan_c]. rewrite Z.eqb_refl. cbv iota beta.
  rewrite (scan_x0 mn (a_minor a) 32 _ HN) by (auto; lia).
  rewrite (scan_d_ok i (a_inode a)) by auto. rewrite PP.
  eexists. split; [reflexivity|]. split; [|reflexivity].
  unfold says. cbn [l_start l_end l_prot l_inode l_name].
  pose proof (perms_testbits (a_read a) (a_write a) (a_exec a)) as (T0 & T1 & T2 & TL).
  repeat split; auto; try apply TL.
  unfold scan_s. cbn [skip_space]. change (is_space 32) with true. cbv iota.
  rewrite skip_spaces by exact HP.
  destruct (a_path a) as [|c p] eqn:EP.
  - left. now cbn.
  - right. cbn [app skip_space]. rewrite (PH c p eq_refl).
    destruct (word_split 255 (c :: p ++ [10])) as (w & r & EW & W & FW & LW & RW). rewrite W.
    destruct w as [|c' w]; [|].
    { exfalso. cbn in EW. subst r. change 255%nat with (S 254) in W. set (k := 254%nat) in W.
      clearbody k. cbn [word] in W.
      rewrite (PH c p eq_refl) in W. destruct (word k (p ++ [10])) as [w' q']. discriminate W. }
    injection EW as <- EW.
    (* the newline is not in the word *)
    assert (X : exists r', p = w ++ r' /\ r = r' ++ [10]).
    { assert (R0 : r <> []).
      { intros ->. rewrite app_nil_r in EW. inversion_clear FW as [|? ? _ FW2].
        rewrite Forall_forall in FW2. assert (I10 : In 10 w) by (rewrite <- EW; apply in_app_iff; cbn; auto).
        apply FW2 in I10. discriminate. }
      destruct (exists_last R0) as (r' & z & ->). rewrite app_assoc in EW.
      apply app_inj_tail in EW as [-> <-]. eauto. }
    destruct X as (r' & -> & ->).
    exists r'. repeat split; [easy|auto|unfold zlen; lia|].
    destruct RW as [RW|[RW|(z & q & RW & SZ)]].
    + destruct r'; discriminate.
    + right; left. unfold zlen. rewrite RW. reflexivity.
    + destruct r' as [|z' r']; [now left|right; right]. injection RW as <- _. eauto.
Qed.

(** ** The file *)

Lemma pieces_lines as_ ts : Forall2 line_of as_ ts -> Forall area_ok as_ ->
  Forall (fun t => zlen t <= 1023) ts ->
  forall fuel, (length (concat ts) <= fuel)%nat -> pieces fuel (concat ts) = ts.
Proof.
  induction 1 as [|a t as_ ts LO FA IH]; intros OK FL fuel LF.
  - destruct fuel; reflexivity.
  - inversion_clear OK as [|? ? OA OK']. inversion_clear FL as [|? ? LT FL'].
    destruct (line_chars a t OA LO) as (_ & b & -> & N10).
    unfold zlen in LT. cbn [concat] in *. rewrite !app_length in *. cbn [length] in *.
    destruct fuel as [|fuel]; [lia|].
    assert (E : forall f, pieces (S f) ((b ++ [10]) ++ concat ts) = (b ++ [10]) :: pieces f (concat ts)).
    { intros f. rewrite <- app_assoc. pose proof (fgets_line 1023 b (concat ts) N10) as G.
      cbn [pieces]. rewrite G by lia. destruct b; reflexivity. }
    rewrite E, IH by (auto; lia). reflexivity.
Qed.

Lemma read_maps_ok as_ ts : Forall2 line_of as_ ts -> Forall area_ok as_ ->
  Forall (fun t => zlen t <= 1023) ts ->
  exists ls, read_maps (concat ts) = MOk ls /\ Forall2 says as_ ls /\
             Forall2 (fun a x => l_dev (fst x) = makedev (a_major a) (a_minor a)) as_ ls.
Proof.
  intros F OK FL. unfold read_maps. rewrite (pieces_lines _ _ F OK FL) by lia. clear FL.
  induction F as [|a t as_ ts LO FA IH]; [exists []; cbn; auto|].
  inversion_clear OK as [|? ? OA OK']. destruct (IH OK') as (ls & E & S & D).
  destruct (scan_line_ok a t OA LO) as (l & EL & SL & DL).
  exists ((l, a_off a) :: ls). cbn [scan_lines]. rewrite EL, E. auto.
Qed.

Lemma makedev_inj m1 n1 m2 n2 : 0 <= m1 < 2 ^ 12 -> 0 <= m2 < 2 ^ 12 -> 0 <= n1 < 2 ^ 20 ->
  0 <= n2 < 2 ^ 20 -> makedev m1 n1 = makedev m2 n2 <-> m1 = m2 /\ n1 = n2.
Proof.
  intros A B C D. split; [|intros [-> ->]; reflexivity]. unfold makedev.
  rewrite !(Z.mod_small m1), !(Z.mod_small m2), !(Z.div_small m1), !(Z.div_small m2) by lia.
  pose proof (Z.mod_pos_bound n1 256 ltac:(lia)). pose proof (Z.mod_pos_bound n2 256 ltac:(lia)).
  pose proof (Z.div_mod n1 256 ltac:(lia)). pose proof (Z.div_mod n2 256 ltac:(lia)).
  lia.
Qed.

(** Hexadecimal numbers of concrete texts *)
Definition hexv (s : list Z) : Z :=
  fold_left (fun v c => 16 * v + (if c <=? 57 then c - 48 else c - 87)) s 0.
Lemma hex_build s : s <> [] ->
  forallb (fun c => (48 <=? c) && (c <=? 57) || (97 <=? c) && (c <=? 102)) s = true -> hex_of s (hexv s).
Proof.
  unfold hexv. induction s as [|c s IH] using rev_ind; intros NE F; [easy|].
  rewrite forallb_app in F. apply andb_prop in F as [F1 F2]. cbn in F2. rewrite andb_true_r in F2.
  assert (D : hex_digit c (if c <=? 57 then c - 48 else c - 87)).
  { unfold hex_digit. destruct (c <=? 57) eqn:E; lia. }
  rewrite fold_left_app. cbn [fold_left]. destruct s as [|c0 s].
  - cbn [fold_left app]. replace (16 * 0 + _) with (if c <=? 57 then c - 48 else c - 87) by lia.
    now constructor.
  - apply hex_more; [apply IH; easy|exact D].
Qed.

Lemma short_name_exact p w : p <> [] -> Forall (fun c => is_space c = false) p -> zlen p <= 255 ->
  short_name p w -> w = p.
Proof.
  intros NE F L [[-> _]|(r & -> & _ & _ & _ & R)]; [easy|].
  rewrite zlen_app in L. destruct R as [->|[R|(c & q & -> & S)]].
  - now rewrite app_nil_r.
  - destruct r as [|c r]; [now rewrite app_nil_r|]. unfold zlen in *. cbn [length] in L. lia.
  - apply Forall_app in F as [_ F]. inversion_clear F. congruence.
Qed.

Lemma short_name_cut p c q w : p <> [] -> Forall (fun c => is_space c = false) p -> zlen p <= 255 ->
  is_space c = true -> short_name (p ++ c :: q) w -> w = p.
Proof.
  intros NE F L S [[E _]|(r & E & _ & FW & LW & R)].
  - now destruct p.
  - apply app_eq_app in E as (l & [[-> ->]|[-> E]]).
    + destruct l as [|x l]; [now rewrite app_nil_r|exfalso].
      apply Forall_app in F as [_ F]. inversion_clear F as [|? ? SX _].
      destruct R as [R|[R|(c' & q' & R & S')]]; [discriminate| |injection R as -> _; congruence].
      rewrite zlen_app in L. unfold zlen in *. cbn [length] in L. lia.
    + destruct l as [|x l]; [now rewrite app_nil_r|exfalso].
      injection E as -> _. apply Forall_app in FW as [_ FW]. inversion_clear FW. congruence.
Qed.
