From Coq Require Import String.
From Verif Require Import Base BaseProofs StorageModel StorageProofs CliModel CliSpec.
Open Scope list_scope.

(** ** Numbers *)
Definition digs (s : list Z) : Prop := Forall (fun c => 48 <= c <= 57) s.
Lemma is_digit_iff c : is_digit c = true <-> 48 <= c <= 57.
Proof. unfold is_digit. lia. Qed.
Lemma digits_app s r acc : digs s -> (match r with [] => True | c :: _ => is_digit c = false end) ->
  digits (s ++ r) acc = fold_left (fun a c => 10 * a + (c - 48)) s acc.
Proof.
  intros D N. revert acc. induction D as [|c s H D IH]; intros acc; cbn [app digits fold_left].
  - destruct r as [|c r]; cbn [digits]; [reflexivity|]. rewrite N. reflexivity.
  - rewrite (proj2 (is_digit_iff c) H), IH. f_equal. lia.
Qed.
Lemma digits_value s : digs s -> digits s 0 = value s.
Proof. intros D. rewrite <- (app_nil_r s) at 1. apply digits_app; [exact D|exact I]. Qed.
Lemma after_digits_all s : digs s -> after_digits s = [].
Proof.
  induction 1 as [|c s H D IH]; cbn [after_digits]; [reflexivity|].
  rewrite (proj2 (is_digit_iff c) H). exact IH.
Qed.
Lemma fold_ge s acc : digs s -> 0 <= acc -> acc <= fold_left (fun a c => 10 * a + (c - 48)) s acc.
Proof.
  intros D. revert acc. induction D as [|c s H D IH]; intros acc A; cbn [fold_left]; [lia|].
  specialize (IH (10 * acc + (c - 48)) ltac:(lia)). lia.
Qed.
Lemma value_nonneg s : digs s -> 0 <= value s.
Proof. intros D. apply (fold_ge s 0 D). lia. Qed.

Lemma s32_id n : 0 <= n < 2 ^ 31 -> s32 n = n.
Proof.
  intros H. unfold s32, sext. rewrite Z.mod_small by (change (2 ^ 32) with 4294967296; lia).
  destruct (_ <? _) eqn:E; [reflexivity|]. change (2 ^ (32 - 1)) with (2 ^ 31) in E. lia.
Qed.

Lemma skip_space_digit c r : 48 <= c <= 57 -> skip_space (c :: r) = c :: r.
Proof. intros H. cbn [skip_space]. unfold is_space. replace ((c =? 32) || _) with false by lia. reflexivity. Qed.

Lemma atoi_numeral s n : numeral s n -> n < 2 ^ 31 -> atoi s = n.
Proof.
  intros (Ne & D & V & _) L. destruct s as [|c r]; [congruence|].
  pose proof D as D0. inversion D as [|? ? H D']. subst. unfold atoi. rewrite skip_space_digit by exact H.
  replace (c =? 45) with false by lia. replace (c =? 43) with false by lia.
  rewrite (digits_value _ D0). pose proof (value_nonneg _ D0).
  rewrite Z.min_l by lia. apply s32_id. lia.
Qed.

Lemma strtoul_numeral s n : numeral s n -> n < 2 ^ 31 -> strtoul s = (n, []).
Proof.
  intros (Ne & D & V & _) L. destruct s as [|c r]; [congruence|].
  pose proof D as D0. inversion D as [|? ? H D']. subst. unfold strtoul. rewrite skip_space_digit by exact H.
  replace (c =? 45) with false by lia. replace (c =? 43) with false by lia.
  rewrite (proj2 (is_digit_iff c) H). rewrite (digits_value _ D0), (after_digits_all _ D0).
  pose proof (value_nonneg _ D0). rewrite Z.min_l by lia. reflexivity.
Qed.
Lemma strtoul_plain s : plain_name s -> strtoul s = (0, s).
Proof.
  destruct s as [|c r]; [intros []|]. intros (D & S & P & M). unfold strtoul. cbn [skip_space].
  rewrite S. replace (c =? 45) with false by lia. replace (c =? 43) with false by lia. rewrite D. reflexivity.
Qed.

(** Different numerals are different numbers. *)
Lemma fold_lower s acc : digs s -> 0 <= acc ->
  acc * 10 ^ zlen s <= fold_left (fun a c => 10 * a + (c - 48)) s acc < (acc + 1) * 10 ^ zlen s.
Proof.
  intros D. revert acc. induction D as [|c s H D IH]; intros acc A; cbn [fold_left].
  - change (zlen (@nil Z)) with 0. rewrite Z.pow_0_r. lia.
  - rewrite zlen_cons. pose proof (zlen_nonneg s). rewrite Z.pow_add_r by lia. rewrite Z.pow_1_r.
    specialize (IH (10 * acc + (c - 48)) ltac:(lia)). 
    assert (0 < 10 ^ zlen s) by (apply Z.pow_pos_nonneg; lia). nia.
Qed.
Lemma fold_inj s : forall t acc, digs s -> digs t -> 0 <= acc -> length s = length t ->
  fold_left (fun a c => 10 * a + (c - 48)) s acc = fold_left (fun a c => 10 * a + (c - 48)) t acc -> s = t.
Proof.
  induction s as [|c s IH]; intros [|d t] acc Ds Dt A L E; try discriminate; [reflexivity|].
  inversion Ds as [|? ? Hc Ds']. inversion Dt as [|? ? Hd Dt']. subst. cbn [fold_left length] in *.
  assert (L' : length s = length t) by lia. assert (Z.of_nat (length s) = Z.of_nat (length t)) by lia.
  fold (zlen s) in H. fold (zlen t) in H.
  pose proof (fold_lower s (10 * acc + (c - 48)) Ds' ltac:(lia)) as B1.
  pose proof (fold_lower t (10 * acc + (d - 48)) Dt' ltac:(lia)) as B2.
  rewrite <- H in B2. assert (P : 0 < 10 ^ zlen s) by (apply Z.pow_pos_nonneg; [lia|apply zlen_nonneg]).
  assert (c = d) by nia. subst d. f_equal. apply (IH t (10 * acc + (c - 48)) Ds' Dt' ltac:(lia) L' E).
Qed.
Lemma numeral_inj s t n : numeral s n -> numeral t n -> s = t.
Proof.
  intros (Ns & Ds & Vs & Zs) (Nt & Dt & Vt & Zt).
  assert (G : forall s, s <> [] -> digs s -> (hd 0 s = 48 -> s = [48]) -> 
    (s = [48] /\ value s = 0) \/ 10 ^ (zlen s - 1) <= value s < 10 ^ zlen s).
  { clear. intros [|c r] N D Hz; [congruence|]. cbn [hd] in Hz. inversion D as [|? ? Hc D']. subst.
    destruct (Z.eq_dec c 48) as [->|Nc]; [left; rewrite (Hz eq_refl); auto|]. right.
    unfold value. cbn [fold_left]. rewrite zlen_cons.
    pose proof (fold_lower r (10 * 0 + (c - 48)) D' ltac:(lia)) as B.
    replace (zlen r + 1 - 1) with (zlen r) by lia. replace (1 + zlen r - 1) with (zlen r) by lia.
    pose proof (zlen_nonneg r). rewrite Z.pow_add_r by lia.
    rewrite Z.pow_1_r. assert (0 < 10 ^ zlen r) by (apply Z.pow_pos_nonneg; lia). nia. }
  destruct (G s Ns Ds Zs) as [[-> Es]|Bs]; destruct (G t Nt Dt Zt) as [[-> Et]|Bt].
  - reflexivity.
  - exfalso. assert (0 < 10 ^ (zlen t - 1)).
    { apply Z.pow_pos_nonneg; [lia|]. destruct t; [congruence|]. rewrite zlen_cons. pose proof (zlen_nonneg t). lia. }
    lia.
  - exfalso. assert (0 < 10 ^ (zlen s - 1)).
    { apply Z.pow_pos_nonneg; [lia|]. destruct s; [congruence|]. rewrite zlen_cons. pose proof (zlen_nonneg s). lia. }
    lia.
  - assert (zlen s = zlen t).
    { destruct (Z.lt_trichotomy (zlen s) (zlen t)) as [C|[C|C]]; [|exact C|].
      - assert (10 ^ zlen s <= 10 ^ (zlen t - 1)) by (apply Z.pow_le_mono_r; lia). lia.
      - assert (10 ^ zlen t <= 10 ^ (zlen s - 1)) by (apply Z.pow_le_mono_r; lia). lia. }
    apply (fold_inj s t 0 Ds Dt); [lia|unfold zlen in *; lia|]. unfold value in *. congruence.
Qed.

(** ** getopt *)
Definition event (o : uopt) : gevent := {| e_opt := Some (u_letter o); e_arg := u_arg o; e_rest := false |}.

Lemma mem_z_in c l : mem_z c l = true <-> In c l.
Proof.
  unfold mem_z. rewrite existsb_exists. split.
  - intros (x & I & E). apply Z.eqb_eq in E. subst. exact I.
  - intros I. exists c. split; [exact I|apply Z.eqb_refl].
Qed.

Lemma getopt_opts g : ~ In 45 (g_args g) -> forall opts rest, Forall (uopt_ok (g_args g)) opts ->
  getopt g None (flat_map words opts ++ rest) =
  (map event opts ++ fst (getopt g None rest), snd (getopt g None rest)).
Proof.
  intros N. induction opts as [|o opts IH]; intros rest F.
  - cbn [flat_map app map]. destruct (getopt g None rest); reflexivity.
  - inversion F as [|? ? [L J] F']. subst. cbn [flat_map map]. rewrite <- app_assoc.
    assert (Nl : u_letter o <> 45) by (intros E; rewrite E in L; contradiction).
    apply mem_z_in in L. unfold words at 1. destruct (u_joined o) eqn:Ej.
    + cbn [app getopt]. 
      assert (Q : list_eqb (45 :: u_letter o :: u_arg o) [45; 45] = false).
      { destruct (list_eqb _ _) eqn:E; [|reflexivity]. apply list_eqb_eq in E. congruence. }
      rewrite Q. cbn [scan_word]. rewrite L. specialize (J eq_refl).
      destruct (u_arg o) as [|a t] eqn:Ea; [congruence|]. rewrite IH by exact F'.
      unfold event at 2. rewrite Ea. reflexivity.
    + cbn [app getopt].
      assert (Q : list_eqb [45; u_letter o] [45; 45] = false).
      { destruct (list_eqb _ _) eqn:E; [|reflexivity]. apply list_eqb_eq in E. congruence. }
      rewrite Q. cbn [scan_word]. rewrite L. cbn [getopt app]. rewrite IH by exact F'. reflexivity.
Qed.
Lemma getopt_operands g ops : match ops with [] => True | w :: _ => operand w end ->
  getopt g None ops = ([], ops).
Proof.
  destruct ops as [|w ops]; [reflexivity|]. intros O. cbn [getopt].
  destruct w as [|c t]; [reflexivity|]. destruct t as [|d t].
  - destruct c as [|p|p]; try reflexivity. repeat (destruct p; try reflexivity).
  - assert (C : c <> 45) by (intros ->; exact (O d t eq_refl)).
    destruct c as [|p|p]; try reflexivity.
    repeat (destruct p as [p|p|]; try reflexivity; try (exfalso; apply C; reflexivity)).
Qed.

(** The value of the options. *)
Definition last_pid (all : bool) (opts : list uopt) : Z :=
  fold_left (fun a o => if u_letter o =? ch_p
                        then if all && list_eqb (u_arg o) (str "all") then a else atoi (u_arg o)
                        else a) opts (-1).

Lemma opt_loop_spec handled all : In ch_p handled -> forall opts s, 
  Forall (fun o => In (u_letter o) handled /\ (u_letter o = ch_p \/ u_letter o = ch_i)) opts ->
  ~ In ch_h handled ->
  opt_loop handled all (map event opts) s = (inl
    {| o_pid := fold_left (fun a o => if u_letter o =? ch_p
                  then if all && list_eqb (u_arg o) (str "all") then a else atoi (u_arg o) else a) opts (o_pid s);
       o_set := o_set s || existsb (fun o => u_letter o =? ch_p) opts;
       o_id := fold_left (fun a o => if u_letter o =? ch_i then Some (u_arg o) else a) opts (o_id s) |}, false).
Proof.
  intros Hp. induction opts as [|o opts IH]; intros s F Nh.
  - cbn. rewrite Bool.orb_false_r. destruct s; reflexivity.
  - inversion F as [|? ? [L C] F']. subst. cbn [map opt_loop fold_left existsb event e_opt e_arg].
    assert (u_letter o <> ch_h) by (intros E; rewrite E in L; contradiction).
    replace (u_letter o =? ch_h) with false by lia. rewrite (proj2 (mem_z_in _ _) L). cbn [negb].
    destruct C as [C|C]; rewrite C.
    + rewrite Z.eqb_refl. change (ch_p =? ch_i) with false. cbn [orb]. rewrite IH by assumption. cbn [o_pid o_set o_id].
      rewrite Bool.orb_true_r. reflexivity.
    + change (ch_i =? ch_p) with false. rewrite Z.eqb_refl. cbn [orb]. rewrite IH by assumption. reflexivity.
Qed.

Lemma cmd_patch_spec opts ops : opts <> [] ->
  Forall (fun o => u_letter o = ch_p /\ (u_joined o = true -> u_arg o <> [])) opts ->
  match ops with [] => True | w :: _ => operand w end ->
  3 <= zlen (flat_map words opts ++ ops) ->
  cmd_patch (flat_map words opts ++ ops) =
    (RunPatch (last_pid true opts) (last (flat_map words opts ++ ops) []), false).
Proof.
  intros Ne F O L. unfold cmd_patch. replace (_ <? 3) with false by lia.
  rewrite getopt_opts.
  - rewrite (getopt_operands _ ops O). cbn [fst snd]. rewrite app_nil_r.
    rewrite opt_loop_spec.
    + cbn [o_set o_pid opt0 orb]. destruct opts as [|o opts]; [congruence|]. inversion F as [|? ? [E _] _]. subst.
      cbn [existsb]. rewrite E, Z.eqb_refl. cbn [orb]. unfold last_pid. reflexivity.
    + left. reflexivity.
    + eapply Forall_impl; [|exact F]. intros o [E _]. rewrite E. split; [left; reflexivity|left; reflexivity].
    + intros [C|[]]. discriminate.
  - cbn. intuition discriminate.
  - eapply Forall_impl; [|exact F]. intros o [E J]. split; [rewrite E; left; reflexivity|exact J].
Qed.

Lemma cmd_unpatch_spec opts ops :
  Forall (fun o => (u_letter o = ch_p \/ u_letter o = ch_i) /\ (u_joined o = true -> u_arg o <> [])) opts ->
  match ops with [] => True | w :: _ => operand w end ->
  3 <= zlen (flat_map words opts ++ ops) -> (exists o, In o opts /\ u_letter o = ch_p) ->
  forall id, fold_left (fun a o => if u_letter o =? ch_i then Some (u_arg o) else a) opts None = Some id ->
  cmd_unpatch (flat_map words opts ++ ops) = (RunUnpatch (last_pid true opts) id ops, false).
Proof.
  intros F O L (o & Io & Eo) id Eid. unfold cmd_unpatch. replace (_ <? 3) with false by lia.
  rewrite getopt_opts.
  - rewrite (getopt_operands _ ops O). cbn [fst snd]. rewrite app_nil_r.
    rewrite opt_loop_spec.
    + cbn [o_set o_pid o_id opt0 orb]. rewrite Eid.
      assert (X : existsb (fun o => u_letter o =? ch_p) opts = true).
      { apply existsb_exists. exists o. split; [exact Io|lia]. }
      rewrite X. reflexivity.
    + left. reflexivity.
    + eapply Forall_impl; [|exact F]. intros u [E _]. split; [destruct E as [->| ->]; cbn; auto|exact E].
    + cbn. intuition discriminate.
  - cbn. intuition discriminate.
  - eapply Forall_impl; [|exact F]. intros u [E J]. split; [destruct E as [->| ->]; cbn; auto|exact J].
Qed.

(** An option nobody knows. *)
Lemma getopt_unknown g c t rest opts : ~ In 45 (g_args g) -> Forall (uopt_ok (g_args g)) opts ->
  ~ In c (g_args g) -> ~ In c (g_flags g) -> (c = 45 -> t <> []) ->
  exists b es ops, getopt g None (flat_map words opts ++ (45 :: c :: t) :: rest) =
    (map event opts ++ {| e_opt := None; e_arg := []; e_rest := b |} :: es, ops).
Proof.
  intros N F Na Nf Q. rewrite getopt_opts by assumption. cbn [getopt].
  assert (E : list_eqb (45 :: c :: t) [45; 45] = false).
  { destruct (list_eqb _ _) eqn:E; [|reflexivity]. apply list_eqb_eq in E. injection E as -> E. subst t.
    specialize (Q eq_refl). congruence. }
  rewrite E. cbn [scan_word].
  destruct (mem_z c (g_args g)) eqn:M1; [apply mem_z_in in M1; contradiction|].
  destruct (mem_z c (g_flags g)) eqn:M2; [apply mem_z_in in M2; contradiction|].
  destruct (scan_word g t) as [es1 p]. destruct (getopt g p rest) as [es2 ops] eqn:G.
  cbn [fst snd app]. eauto.
Qed.
Lemma opt_loop_stop handled all b es : ~ In ch_h handled -> In ch_p handled -> forall opts s,
  Forall (fun o => In (u_letter o) handled /\ (u_letter o = ch_p \/ u_letter o = ch_i)) opts ->
  opt_loop handled all (map event opts ++ {| e_opt := None; e_arg := []; e_rest := b |} :: es) s =
  (inr UsageErr, b).
Proof.
  intros Nh Hp. induction opts as [|o opts IH]; intros s F; cbn [map app opt_loop e_opt]; [reflexivity|].
  inversion F as [|? ? [L C] F']. subst. cbn [event e_opt e_arg].
  assert (u_letter o <> ch_h) by (intros E; rewrite E in L; contradiction).
  replace (u_letter o =? ch_h) with false by lia. rewrite (proj2 (mem_z_in _ _) L). cbn [negb].
  destruct C as [C|C]; rewrite C.
  - rewrite Z.eqb_refl. apply IH; assumption.
  - change (ch_i =? ch_p) with false. rewrite Z.eqb_refl. apply IH; assumption.
Qed.

(** ** All processes *)
Lemma entry_numeral self s n : numeral s n -> n < 2 ^ 31 ->
  entry_pid self s = if (n =? 0) || (n =? 1) || (n =? self) then None else Some n.
Proof.
  intros N L. pose proof N as (Ne & D & V & _). unfold entry_pid.
  rewrite (strtoul_numeral s n N L). 
  assert (0 <= n) by (rewrite <- V; apply value_nonneg, D).
  rewrite (s32_id n) by lia. cbn [nonempty]. rewrite Bool.orb_false_r.
  destruct s as [|c r]; [congruence|]. inversion D as [|? ? Hc D']. subst.
  assert (C : c <> 46) by lia.
  destruct c as [|p|p]; try lia. repeat (destruct p as [p|p|]; try lia; try reflexivity).
Qed.
Lemma entry_plain self s : plain_name s -> entry_pid self s = None.
Proof.
  intros P. assert (G : (let '(v, e) := strtoul s in let pid := s32 v in
    if (pid =? 0) || nonempty e || (pid =? 1) || (pid =? self) then None else Some pid) = None).
  { rewrite (strtoul_plain s P). reflexivity. }
  unfold entry_pid. destruct s as [|c r]; [destruct P|].
  destruct c as [|p|p]; try exact G. repeat (destruct p as [p|p|]; try exact G; try reflexivity).
Qed.

Section All.
Variables (self : Z) (exe : Z -> bool) (cb : nat -> Z -> Z).
Lemma do_entries_in : (forall k n, cb k n <> -2) -> forall names k ret, Forall proc_name names ->
  forall n, In n (snd (do_entries self exe cb k ret names)) <-> eligible self exe names n.
Proof.
  intros C. induction names as [|s names IH]; intros k ret F n; cbn [do_entries].
  - cbn. split; [intros []|]. intros ((x & [] & _) & _).
  - inversion F as [|? ? P F']. subst.
    assert (Skip : (forall m, numeral s m -> m = 0 \/ m = 1 \/ m = self \/ exe m = false) ->
             eligible self exe names n <-> eligible self exe (s :: names) n).
    { intros K. unfold eligible. split.
      - intros ((x & I & N) & R). split; [exists x; split; [right; exact I|exact N]|exact R].
      - intros ((x & [<-|I] & N) & R).
        + specialize (K n N). destruct R as (R1 & R2 & R3 & R4).
          destruct K as [K|[K|[K|K]]]; congruence.
        + split; [exists x; auto|exact R]. }
    destruct P as [P|(m & N & L)].
    + rewrite (entry_plain self s P), IH by exact F'. apply Skip. intros m (Ne & D & _).
      destruct s as [|c r]; [congruence|]. destruct P as (P & _). inversion D as [|? ? H D']. subst.
      apply is_digit_iff in H. congruence.
    + rewrite (entry_numeral self s m N L).
      assert (Un : forall m', numeral s m' -> m' = m).
      { intros m' (_ & _ & V' & _). destruct N as (_ & _ & V & _). congruence. }
      destruct ((m =? 0) || (m =? 1) || (m =? self)) eqn:E.
      { rewrite IH by exact F'. apply Skip. intros m' N'. rewrite (Un m' N'). lia. }
      destruct (exe m) eqn:Ex; cbn [negb].
      2:{ rewrite IH by exact F'. apply Skip. intros m' N'. rewrite (Un m' N'). auto. }
      replace (cb k m =? -2) with false by (specialize (C k m); lia).
      specialize (IH (S k) (if cb k m <? 0 then -1 else ret) F' n).
      destruct (do_entries self exe cb (S k) (if cb k m <? 0 then -1 else ret) names) as [f l].
      cbn [snd] in *. cbn [In]. rewrite IH. unfold eligible. split.
      * intros [<-|((x & I & N') & R)].
        -- split; [exists s; split; [left; reflexivity|exact N]|]. split; [lia|split; [lia|split; [lia|exact Ex]]].
        -- split; [exists x; split; [right; exact I|exact N']|exact R].
      * intros ((x & [<-|I] & N') & R); [left; symmetry; apply Un, N'|right; eauto].
Qed.

Lemma do_entries_nodup : forall names k ret, Forall proc_name names -> NoDup names ->
  NoDup (snd (do_entries self exe cb k ret names)).
Proof.
  assert (Sub : forall names k ret n, Forall proc_name names -> In n (snd (do_entries self exe cb k ret names)) ->
            exists s, In s names /\ numeral s n).
  { induction names as [|s names IH]; intros k ret n F; cbn [do_entries]; [intros []|].
    inversion F as [|? ? P F']. subst.
    assert (K : forall k ret, In n (snd (do_entries self exe cb k ret names)) ->
              exists x, In x (s :: names) /\ numeral x n).
    { intros k' ret' I. destruct (IH k' ret' n F' I) as (x & Ix & N). exists x. split; [right; exact Ix|exact N]. }
    destruct P as [P|(m & N & L)]; [rewrite (entry_plain self s P); apply K|].
    rewrite (entry_numeral self s m N L). destruct (_ || _); [apply K|]. destruct (exe m); cbn [negb]; [|apply K].
    assert (Here : exists x, In x (s :: names) /\ numeral x m) by (exists s; split; [left; reflexivity|exact N]).
    destruct (cb k m =? -2).
    - cbn. intros [<-|[]]. exact Here.
    - specialize (K (S k) (if cb k m <? 0 then -1 else ret)).
      destruct (do_entries self exe cb (S k) _ names) as [f l]. cbn [snd] in *.
      intros [<-|I]; [exact Here|exact (K I)]. }
  induction names as [|s names IH]; intros k ret F D; cbn [do_entries]; [constructor|].
  inversion F as [|? ? P F']. inversion D as [|? ? Ns D']. subst.
  destruct P as [P|(m & N & L)]; [rewrite (entry_plain self s P); apply IH; assumption|].
  rewrite (entry_numeral self s m N L). destruct (_ || _); [apply IH; assumption|].
  destruct (exe m); cbn [negb]; [|apply IH; assumption].
  destruct (cb k m =? -2); [cbn; constructor; [intros []|constructor]|].
  pose proof (IH (S k) (if cb k m <? 0 then -1 else ret) F' D') as I1.
  pose proof (Sub names (S k) (if cb k m <? 0 then -1 else ret) m F') as I2.
  destruct (do_entries self exe cb (S k) _ names) as [f l]. cbn [snd] in *.
  constructor; [|exact I1]. intros I. destruct (I2 I) as (x & Ix & Nx).
  rewrite (numeral_inj s x m N Nx) in Ns. contradiction.
Qed.

(** The result: failure exactly if one call failed. *)
Lemma do_entries_ret : forall names k ret, (ret = 0 \/ ret = -1) ->
  let '(f, l) := do_entries self exe cb k ret names in
  (f = 0 \/ f = -1) /\
  (f = -1 <-> ret = -1 \/ exists i n, nth_error l i = Some n /\ cb (k + i)%nat n < 0).
Proof.
  induction names as [|s names IH]; intros k ret R; cbn [do_entries].
  - split; [exact R|]. split; [auto|]. intros [H|(i & n & E & _)]; [exact H|destruct i; discriminate].
  - destruct (entry_pid self s) as [m|]; [|apply IH, R].
    destruct (negb (exe m)); [apply IH, R|].
    set (ret' := if cb k m <? 0 then -1 else ret).
    assert (R' : ret' = 0 \/ ret' = -1) by (unfold ret'; destruct (cb k m <? 0); auto).
    assert (E' : ret' = -1 <-> ret = -1 \/ cb k m < 0).
    { unfold ret'. destruct (cb k m <? 0) eqn:E; split; intros; try lia; intuition lia. }
    destruct (cb k m =? -2) eqn:S2.
    + split; [exact R'|]. rewrite E'. split.
      * intros [H|H]; [auto|]. right. exists O, m. rewrite Nat.add_0_r. auto.
      * intros [H|(i & n & E & H)]; [auto|]. destruct i as [|i]; [|destruct i; discriminate].
        apply some_inj in E. subst n. rewrite Nat.add_0_r in H. auto.
    + specialize (IH (S k) ret' R'). destruct (do_entries self exe cb (S k) ret' names) as [f l].
      destruct IH as [I1 I2]. split; [exact I1|]. rewrite I2, E'. split.
      * intros [[H|H]|(i & n & E & H)]; [auto|right; exists O, m; rewrite Nat.add_0_r; auto|].
        right. exists (S i), n. split; [exact E|]. replace (k + S i)%nat with (S k + i)%nat by lia. exact H.
      * intros [H|(i & n & E & H)]; [auto|]. destruct i as [|i].
        -- apply some_inj in E. subst n. rewrite Nat.add_0_r in H. auto.
        -- right. exists i, n. split; [exact E|]. replace (S k + i)%nat with (k + S i)%nat by lia. exact H.
Qed.
End All.

(** The last -p decides. *)
Lemma last_pid_app all a b acc : fold_left (fun a o => if u_letter o =? ch_p
                        then if all && list_eqb (u_arg o) (str "all") then a else atoi (u_arg o)
                        else a) (a ++ b) acc =
  fold_left (fun a o => if u_letter o =? ch_p
                        then if all && list_eqb (u_arg o) (str "all") then a else atoi (u_arg o)
                        else a) b (fold_left (fun a o => if u_letter o =? ch_p
                        then if all && list_eqb (u_arg o) (str "all") then a else atoi (u_arg o)
                        else a) a acc).
Proof. apply fold_left_app. Qed.
Lemma numeral_not_all s n : numeral s n -> list_eqb s (str "all") = false.
Proof.
  intros (Ne & D & _). destruct (list_eqb s (str "all")) eqn:E; [|reflexivity].
  apply list_eqb_eq in E. subst s. inversion D. lia.
Qed.
Lemma fold_no_letter {A} (f : A -> uopt -> A) c post acc :
  (forall a o, u_letter o <> c -> f a o = a) -> Forall (fun o => u_letter o <> c) post ->
  fold_left f post acc = acc.
Proof.
  intros Hf F. revert acc. induction F as [|o l H F IH]; intros acc; cbn [fold_left]; [reflexivity|].
  rewrite Hf by exact H. apply IH.
Qed.
Lemma last_pid_numeral all pre o post n : u_letter o = ch_p -> numeral (u_arg o) n -> n < 2 ^ 31 ->
  Forall (fun o => u_letter o <> ch_p) post -> last_pid all (pre ++ o :: post) = n.
Proof.
  intros E N L F. unfold last_pid. rewrite fold_left_app. cbn [fold_left].
  rewrite E, Z.eqb_refl, (numeral_not_all _ _ N), Bool.andb_false_r, (atoi_numeral _ _ N L).
  apply (fold_no_letter _ ch_p); [|exact F]. intros a x X. replace (u_letter x =? ch_p) with false by lia. reflexivity.
Qed.
Lemma last_id pre o post : u_letter o = ch_i -> Forall (fun o => u_letter o <> ch_i) post ->
  fold_left (fun a o => if u_letter o =? ch_i then Some (u_arg o) else a) (pre ++ o :: post) None = Some (u_arg o).
Proof.
  intros E F. rewrite fold_left_app. cbn [fold_left]. rewrite E, Z.eqb_refl.
  apply (fold_no_letter _ ch_i); [|exact F]. intros a x X. replace (u_letter x =? ch_i) with false by lia. reflexivity.
Qed.
Lemma cmd_info_spec opts ops :
  Forall (fun o => u_letter o = ch_p /\ (u_joined o = true -> u_arg o <> [])) opts ->
  match ops with [] => True | w :: _ => operand w end ->
  cmd_info (flat_map words opts ++ ops) = (RunInfo (last_pid false opts), false).
Proof.
  intros F O. unfold cmd_info. rewrite getopt_opts.
  - rewrite (getopt_operands _ ops O). cbn [fst snd]. rewrite app_nil_r.
    rewrite opt_loop_spec.
    + reflexivity.
    + left. reflexivity.
    + eapply Forall_impl; [|exact F]. intros o [E _]. rewrite E. split; [left; reflexivity|left; reflexivity].
    + cbn. intuition discriminate.
  - cbn. intuition discriminate.
  - eapply Forall_impl; [|exact F]. intros o [E J]. split; [rewrite E; left; reflexivity|exact J].
Qed.

(** Words with one option each leave nothing behind in the parser. *)
Lemma getopt_rest g : In ch_p (g_args g) -> forall args pend, Forall one_option args ->
  Forall (fun e => e_rest e = false) (fst (getopt g pend args)).
Proof.
  intros Hp. induction args as [|a args IH]; intros pend F; cbn [getopt].
  - destruct pend; cbn; auto.
  - inversion F as [|? ? O F']. subst. destruct pend as [c|].
    + specialize (IH None F'). destruct (getopt g None args). cbn in *. auto.
    + assert (W : forall c t, a = 45 :: c :: t -> Forall (fun e => e_rest e = false)
        (fst (if list_eqb a [45; 45] then ([], args) else
          let '(es1, p) := scan_word g (c :: t) in let '(es2, ops) := getopt g p args in (es1 ++ es2, ops)))).
      { intros c t E. destruct (list_eqb a [45; 45]); [constructor|].
        assert (S : Forall (fun e => e_rest e = false) (fst (scan_word g (c :: t)))).
        { cbn [scan_word]. destruct (O c t E) as [->| ->].
          - destruct (mem_z c (g_args g)); cbn; auto.
          - rewrite (proj2 (mem_z_in _ _) Hp). destruct t; cbn; auto. }
        destruct (scan_word g (c :: t)) as [es1 p]. specialize (IH p F'). destruct (getopt g p args) as [es2 ops].
        cbn [fst] in *. apply Forall_app. auto. }
      destruct a as [|x [|c t]]; [constructor|destruct x as [|p|p]; try constructor; repeat (destruct p; try constructor)|].
      destruct (Z.eq_dec x 45) as [->|Nx]; [apply (W c t eq_refl)|].
      destruct x as [|p|p]; try constructor. repeat (destruct p as [p|p|]; try constructor). congruence.
Qed.
Lemma opt_loop_rest handled all : forall es s, Forall (fun e => e_rest e = false) es ->
  snd (opt_loop handled all es s) = false.
Proof.
  induction es as [|e es IH]; intros s F; cbn [opt_loop]; [reflexivity|].
  inversion F as [|? ? E F']. subst. destruct (e_opt e) as [c|]; [|exact E].
  destruct (c =? ch_h); [exact E|]. destruct (negb _); [exact E|].
  destruct (c =? ch_p); [apply IH, F'|]. destruct (c =? ch_i); apply IH, F'.
Qed.
Lemma parse_rest cmd args o b : Forall one_option args -> parse_cmd cmd args = Some (o, b) -> b = false.
Proof.
  intros F. unfold parse_cmd. destruct (command_of cmd) as [[]|]; [| | |discriminate]; intros H; apply some_inj in H.
  - unfold cmd_patch in H. destruct (zlen args <? 3); [congruence|].
    pose proof (getopt_rest {| g_flags := [104; 115]; g_args := [112; 114] |} (or_introl eq_refl) args None F) as R.
    destruct (getopt _ None args) as [es ops]. pose proof (opt_loop_rest [ch_p] true es opt0 R) as Q.
    destruct (opt_loop [ch_p] true es opt0) as [[s|u] b']; cbn [snd] in Q; [destruct (o_set s)|]; congruence.
  - unfold cmd_unpatch in H. destruct (zlen args <? 3); [congruence|].
    pose proof (getopt_rest {| g_flags := [104]; g_args := [112; 105] |} (or_introl eq_refl) args None F) as R.
    destruct (getopt _ None args) as [es ops]. pose proof (opt_loop_rest [ch_p; ch_i] true es opt0 R) as Q.
    destruct (opt_loop [ch_p; ch_i] true es opt0) as [[s|u] b']; cbn [snd] in Q; [destruct (o_set s), (o_id s)|]; congruence.
  - unfold cmd_info in H.
    pose proof (getopt_rest {| g_flags := [104; 118]; g_args := [112] |} (or_introl eq_refl) args None F) as R.
    destruct (getopt _ None args) as [es ops]. pose proof (opt_loop_rest [ch_p; ch_v] false es opt0 R) as Q.
    destruct (opt_loop [ch_p; ch_v] false es opt0) as [[s|u] b']; cbn [snd] in Q; congruence.
Qed.
Lemma serve_own cmds : Forall (fun c => Forall one_option (snd c)) cmds ->
  serve false cmds = map (fun c => Served (option_map fst (parse_cmd (fst c) (snd c)))) cmds.
Proof.
  induction 1 as [|[cmd args] cmds F FF IH]; cbn [serve map fst snd andb] in *; [reflexivity|].
  destruct (parse_cmd cmd args) as [[o b]|] eqn:P; cbn [option_map fst].
  - rewrite (parse_rest _ _ _ _ F P). destruct (reaches_getopt cmd args); rewrite IH; reflexivity.
  - rewrite IH. reflexivity.
Qed.
