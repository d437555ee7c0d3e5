(** Proofs about a program that has just been started. *)
From Coq Require Import String ZifyBool.
From Verif Require Import Base BaseProofs StorageModel CliSpec ProcModel MapsModel MapsProofs
  StartModel StartSpec.
Open Scope list_scope.

(** ** The auxiliary vector *)

Lemma pair_buffer k v buf : 0 <= k < 2 ^ 64 -> 0 <= v < 2 ^ 64 ->
  let b := overwrite (le_bytes 8 k ++ le_bytes 8 v) buf in
  ulong_at b 0 = k /\ ulong_at b 1 = v.
Proof.
  intros K V. unfold overwrite, ulong_at.
  assert (F8 : forall x (l : list Z), firstn 8 (le_bytes 8 x ++ l) = le_bytes 8 x).
  { reflexivity. }
  split.
  - change (8 * 0)%nat with 0%nat. cbn [skipn]. rewrite <- app_assoc, F8, le_val_bytes.
    apply Z.mod_small. exact K.
  - change (8 * 1)%nat with 8%nat. rewrite <- app_assoc.
    replace (skipn 8 (le_bytes 8 k ++ le_bytes 8 v ++ skipn (length (le_bytes 8 k ++ le_bytes 8 v)) buf))
      with (le_bytes 8 v ++ skipn (length (le_bytes 8 k ++ le_bytes 8 v)) buf).
    + rewrite F8, le_val_bytes. apply Z.mod_small. exact V.
    + reflexivity.
Qed.

Lemma pair_length k v : length (le_bytes 8 k ++ le_bytes 8 v) = 16%nat.
Proof. rewrite app_length, !le_bytes_length. reflexivity. Qed.

Lemma entry_found pre v rs more : pairs_read (pre ++ [(AT_ENTRY, v)]) rs ->
  Forall (fun x => fst x <> AT_ENTRY) pre -> forall buf,
  entry_loop (rs ++ more) buf = EPoint (Some v).
Proof.
  intros P. remember (pre ++ [(AT_ENTRY, v)]) as ps eqn:E. revert pre E.
  induction P as [|ps rs P IH|k w ps rs K W P IH]; intros pre E F buf.
  - now destruct pre.
  - cbn [app entry_loop]. now apply (IH pre).
  - cbn [app entry_loop]. rewrite pair_length. cbn [Nat.eqb negb].
    destruct (pair_buffer k w buf K W) as (E0 & E1). rewrite E0, E1.
    destruct pre as [|x pre].
    + injection E as -> -> _. now rewrite Z.eqb_refl.
    + injection E as <- E. inversion_clear F as [|? ? N F']. cbn in N.
      replace (k =? AT_ENTRY) with false by lia. now apply (IH pre).
Qed.

Lemma entry_none ps rs last more : pairs_read ps rs -> Forall (fun x => fst x <> AT_ENTRY) ps ->
  last = RErr \/ last = RBytes [] -> forall buf, ulong_at buf 0 <> AT_ENTRY ->
  entry_loop (rs ++ last :: more) buf = ENone.
Proof.
  intros P F L. induction P as [|ps rs P IH|k w ps rs K W P IH]; intros buf B.
  - destruct L as [->| ->]; cbn [app entry_loop].
    + now replace (ulong_at buf 0 =? AT_ENTRY) with false by lia.
    + cbn [length Nat.eqb negb]. unfold overwrite. cbn [app length skipn].
      now replace (ulong_at buf 0 =? AT_ENTRY) with false by lia.
  - cbn [app entry_loop]. now apply IH.
  - cbn [app entry_loop]. rewrite pair_length. cbn [Nat.eqb negb].
    destruct (pair_buffer k w buf K W) as (E0 & E1). rewrite E0.
    inversion_clear F as [|? ? N F']. cbn in N.
    replace (k =? AT_ENTRY) with false by lia. apply IH; [exact F'|]. now rewrite E0.
Qed.

(** ** Names *)

Lemma after_slash_none b acc : ~ In 47 b -> after_slash b acc = acc.
Proof.
  revert acc. induction b as [|c b IH]; intros acc N; [reflexivity|]. cbn in N. cbn [after_slash].
  replace (c =? 47) with false by lia. apply IH. tauto.
Qed.
Lemma after_slash_last d b acc : ~ In 47 b -> after_slash (d ++ 47 :: b) acc = b.
Proof.
  intros N. revert acc. induction d as [|c d IH]; intros acc.
  - cbn. now apply after_slash_none.
  - cbn [app after_slash]. apply IH.
Qed.
Lemma basename_last p b : last_part p b -> basename p = b.
Proof.
  intros [N [->|[d ->]]]; unfold basename; [now apply after_slash_none|now apply after_slash_last].
Qed.

Lemma removelast_in {A} (x : A) l : In x (removelast l) -> In x l.
Proof.
  induction l as [|a [|b l] IH]; [easy|easy|]. intros [->|I]; [now left|right; now apply IH].
Qed.
Lemma last_part_short p b : b <> [] -> last_part p b -> last_part (removelast p) (removelast b).
Proof.
  intros NE [N L]. split; [intros I; apply N; now apply removelast_in|].
  destruct L as [->|[d ->]]; [now left|right]. exists d.
  rewrite removelast_app by discriminate. cbn [removelast]. now destruct b.
Qed.

Lemma real_base exe name : program exe name ->
  firstn 4096 exe = exe /\ length exe <> O /\ basename (upto_nul (removelast exe)) = removelast name.
Proof.
  intros (N0 & L & LP & NE & _). split; [|split].
  - apply firstn_all2. unfold zlen in L. lia.
  - destruct exe as [|c exe]; [|discriminate]. destruct LP as [_ [E|[d E]]]; [congruence|]. now destruct d.
  - rewrite upto_nul_none; [|intros I; now apply N0, removelast_in].
    now apply basename_last, last_part_short.
Qed.

Lemma cut_none pat s : (forall r, pat <> 32 :: r) \/ ~ In 32 s -> hd 0 pat = 32 -> cut_at pat s = s.
Proof.
  intros N H. destruct pat as [|x pat]; [discriminate|]. cbn in H. subst x.
  destruct N as [N|N]; [now elim (N pat)|].
  induction s as [|c s IH]; [reflexivity|]. cbn in N. cbn [cut_at is_prefix].
  replace (32 =? c) with false by lia. cbn [andb]. f_equal. apply IH. tauto.
Qed.
Lemma cut_plain s : ~ In 32 s -> cut_at (str " (deleted)") s = s.
Proof. intros N. apply cut_none; [auto|reflexivity]. Qed.
Lemma cut_app a r : ~ In 32 a -> cut_at (str " (deleted)") (a ++ r) = a ++ cut_at (str " (deleted)") r.
Proof.
  induction a as [|c a IH]; intros N; [reflexivity|]. cbn in N. cbn [app cut_at].
  change (str " (deleted)") with (32 :: str "(deleted)"). cbn [is_prefix].
  replace (32 =? c) with false by lia. cbn [andb]. f_equal. apply IH. tauto.
Qed.
Lemma cut_prefix pat s : starts_with (cut_at pat s) s.
Proof.
  induction s as [|c s [r IH]]; [exists []; cbn; now destruct (is_prefix pat [])|].
  cbn [cut_at]. destruct (is_prefix pat (c :: s)); [now exists (c :: s)|].
  exists r. cbn. now f_equal.
Qed.

Lemma is_prefix_starts p s : is_prefix p s = true <-> starts_with p s.
Proof.
  revert s. induction p as [|x p IH]; intros s; cbn [is_prefix].
  - split; [intros _; now exists s|reflexivity].
  - destruct s as [|c s]; [split; [discriminate|intros [r E]; discriminate]|].
    rewrite andb_true_iff, IH, Z.eqb_eq. split.
    + intros [-> [r ->]]. now exists r.
    + intros [r E]. injection E as -> ->. split; [reflexivity|now exists r].
Qed.

Lemma removelast_length {A} (l : list A) : length (removelast l) = pred (length l).
Proof.
  induction l as [|a [|b l] IH]; [reflexivity|reflexivity|]. cbn [removelast length] in *. lia.
Qed.

(** ** The first mmap *)

Definition good_arch (a : arch) : Prop := a = X86 \/ a = RISCV.

Lemma s32_small n : 0 <= n < 2 ^ 31 -> s32 n = n.
Proof.
  intros H. unfold s32, sext. rewrite Z.mod_small by lia. change (2 ^ (32 - 1)) with (2 ^ 31).
  cbv zeta. now replace (n <? 2 ^ 31) with true by lia.
Qed.

Lemma nr_of_good a r : good_arch a -> nr_of a r = r_nr r /\ ret_of a r = r_ret r.
Proof. intros [->| ->]; split; reflexivity. Qed.

Lemma fst_pair {A B C} (x : A * B) (f : A -> B -> C) : (let '(a, b) := x in f a b) = f (fst x) (snd x).
Proof. now destruct x. Qed.

(** A call that is no mmap is passed *)
Lemma pass_call a nr ret f1 p1 f2 p2 x evs st : good_arch a -> 0 <= nr < 2 ^ 31 -> nr <> nr_mmap a ->
  mmap_loop a (MStop 5 {| r_nr := nr; r_ret := x; r_fp := f1; r_pc := p1 |}
       :: MStop 5 {| r_nr := nr; r_ret := ret; r_fp := f2; r_pc := p2 |} :: evs) 0 st
  = (fst (mmap_loop a evs 0 0), st :: 0 :: snd (mmap_loop a evs 0 0)).
Proof.
  intros G L N. cbn [mmap_loop]. change (5 =? SIGTRAP) with true. rewrite !andb_false_r.
  change (0 =? 0) with true. cbv iota.
  rewrite (proj1 (nr_of_good a _ G)). cbn [r_nr].
  assert (U : u64 nr = nr) by (unfold u64; apply Z.mod_small; lia). rewrite U.
  replace (nr =? 2 ^ 64 - 1) with false by lia. rewrite !andb_false_r. rewrite (s32_small nr L).
  destruct (Z.eqb_spec nr 0) as [->|NZ].
  - rewrite (proj1 (nr_of_good a _ G)). cbn [r_nr]. change (u64 0 =? 2 ^ 64 - 1) with false.
    rewrite !andb_false_r. change (s32 0) with 0. now destruct (mmap_loop a evs 0 0).
  - replace (nr =? nr_mmap a) with false by lia. now destruct (mmap_loop a evs 0 0).
Qed.

Lemma take_mmap a ret f1 p1 f2 p2 x evs st : good_arch a ->
  mmap_loop a (MStop 5 {| r_nr := nr_mmap a; r_ret := x; r_fp := f1; r_pc := p1 |}
       :: MStop 5 {| r_nr := nr_mmap a; r_ret := ret; r_fp := f2; r_pc := p2 |} :: evs) 0 st
  = (WBase (u64 ret), [st; 0]).
Proof. intros [->| ->]; reflexivity. Qed.

Lemma first_mmap a l ret evs more : good_arch a -> stops_of (l ++ [Call (nr_mmap a) ret]) evs ->
  Forall (not_call (nr_mmap a)) l -> (a = X86 -> Forall is_call l) ->
  forall st, fst (mmap_loop a (evs ++ more) 0 st) = WBase (u64 ret).
Proof.
  intros G. revert evs. induction l as [|x l IH]; intros evs S NM C st.
  - cbn [app] in S. inversion S; subst.
    match goal with H : stops_of [] ?z |- _ => inversion H; subst end.
    cbn [app]. now rewrite take_mmap.
  - inversion_clear NM as [|? ? N1 NM']. cbn [app] in S. inversion S; subst.
    + cbn [app]. rewrite pass_call by auto. cbn [fst]. apply IH; auto.
      intros E. specialize (C E). now inversion_clear C.
    + destruct G as [->| ->]; [specialize (C eq_refl); inversion_clear C as [|? ? Q _]; now elim Q|].
      cbn [app mmap_loop only_traps andb]. change SIGTRAP with 5.
      match goal with H : s <> 5 |- _ => replace (s =? 5) with false by lia end. cbn [negb].
      rewrite fst_pair. cbn [fst]. apply IH; auto. intros E. discriminate.
Qed.

(** No signal is handed on. *)
Lemma no_signal a evs ins : Forall (fun s => s = 0) (snd (mmap_loop a evs ins 0)).
Proof.
  revert ins. induction evs as [|e evs IH]; intros ins; [cbn; auto|].
  assert (T : forall i, Forall (fun s => s = 0) (snd (let '(x, l) := mmap_loop a evs i 0 in (x, 0 :: l)))).
  { intros i. specialize (IH i). destruct (mmap_loop a evs i 0). cbn in *. auto. }
  destruct e; cbn [mmap_loop]; auto; [cbn; auto|].
  destruct (only_traps a && negb (sig =? SIGTRAP)); [apply T|].
  destruct (ins =? 0).
  - destruct (negb (only_traps a) && _); [cbn; auto|apply T].
  - destruct (ins =? nr_mmap a); [cbn; auto|apply T].
Qed.

(** ** The thread group *)

Lemma scan_lit_not lit s : ~ starts_with lit s -> exists p r, scan_lit lit s = (false, r) /\ s = p ++ r /\
  starts_with p lit.
Proof.
  revert s. induction lit as [|x lit IH]; intros s N.
  - elim N. now exists s.
  - cbn [scan_lit]. destruct s as [|c s]; [exists [], []; repeat split; now exists (x :: lit)|].
    destruct (Z.eqb_spec c x) as [->|D].
    + destruct (IH s) as (p & r & E & -> & [q ->]).
      * intros [r ->]. apply N. now exists r.
      * exists (x :: p), r. repeat split; [exact E|]. now exists q.
    + exists [], (c :: s). repeat split. now exists (x :: lit).
Qed.
Lemma scan_lit_app lit r : scan_lit lit (lit ++ r) = (true, r).
Proof. induction lit as [|x lit IH]; [reflexivity|]. cbn. now rewrite Z.eqb_refl. Qed.

Lemma starts_with_app p s r : starts_with p (s ++ r) -> (length p <= length s)%nat -> starts_with p s.
Proof.
  intros [q E] L. exists (skipn (length p) s). 
  assert (F : firstn (length p) (s ++ r) = p).
  { rewrite E, firstn_app, Nat.sub_diag, firstn_all. cbn. apply app_nil_r. }
  rewrite firstn_app in F. replace (length p - length s)%nat with 0%nat in F by lia.
  cbn in F. rewrite app_nil_r in F. rewrite <- F at 1. symmetry. apply firstn_skipn.
Qed.

Lemma line_skipped l rest fuel : status_line l ->
  tgid_loop (S fuel) (l ++ rest) = tgid_loop fuel rest.
Proof.
  intros (b & -> & N10 & L & NT).
  assert (NT' : ~ starts_with (str "Tgid:") ((b ++ [10]) ++ rest)).
  { intros H. destruct (le_lt_dec (length (str "Tgid:")) (length (b ++ [10]))) as [LE|LT].
    - apply NT. now apply (starts_with_app _ _ rest).
    - (* the newline is within the five characters *)
      destruct H as [q E]. rewrite <- app_assoc in E.
      assert (I : In 10 (firstn (length (str "Tgid:")) (b ++ [10] ++ rest))).
      { rewrite app_length in LT. cbn [length] in LT. rewrite firstn_app. apply in_app_iff. right.
        destruct (length (str "Tgid:") - length b)%nat as [|k] eqn:K; [lia|]. cbn. now left. }
      rewrite E, firstn_app, firstn_all, Nat.sub_diag in I. cbn in I. intuition discriminate. }
  destruct (scan_lit_not _ _ NT') as (p & r & E & SP & [q PQ]).
  (* what matched is in front of the newline *)
  assert (NP : ~ In 10 p).
  { intros I. assert (I2 : In 10 (str "Tgid:")) by (rewrite PQ; apply in_app_iff; auto).
    cbn in I2. intuition discriminate. }
  assert (B : exists b', r = b' ++ [10] ++ rest /\ ~ In 10 b' /\ (length b' <= length b)%nat).
  { rewrite <- app_assoc in SP. apply app_eq_app in SP as (l & [[-> ->]|[-> SP]]).
    - exists l. repeat split; [|rewrite app_length; lia]. intros I. apply N10. apply in_app_iff; auto.
    - destruct l as [|x l].
      + exists []. rewrite app_nil_r in *. cbn in *. repeat split; [congruence|tauto|lia].
      + injection SP as <- _. elim NP. apply in_app_iff. right. now left. }
  destruct B as (b' & -> & NB & LB).
  unfold zlen in L. rewrite app_length in L. cbn [length] in L.
  cbn [tgid_loop]. rewrite E.
  rewrite (fgets_line 255 b' rest NB) by lia. cbn [snd].
  destruct b; cbn [app]; destruct b'; reflexivity.
Qed.

Lemma tgid_found ls tab s n rest fuel : Forall status_line ls -> Forall (fun c => is_space c = true) tab ->
  numeral s n -> 0 <= n < 2 ^ 31 -> (length ls < fuel)%nat ->
  tgid_loop fuel (concat ls ++ str "Tgid:" ++ tab ++ s ++ 10 :: rest) = n.
Proof.
  intros F TB NU L. revert fuel. induction F as [|l ls SL F IH]; intros fuel LF.
  - destruct fuel as [|fuel]; [easy|]. cbn [concat app].
    assert (SD : scan_d (tab ++ s ++ 10 :: rest) = Some (n, 10 :: rest)).
    { unfold scan_d. assert (SK : skip_space (tab ++ s ++ 10 :: rest) = s ++ 10 :: rest).
      { destruct NU as (NE & FD & _). destruct s as [|c s]; [easy|]. inversion_clear FD as [|? ? LC _].
        induction TB as [|x tab SX TB IHT]; [|cbn; rewrite SX; exact IHT].
        cbn [app skip_space]. now replace (is_space c) with false by (unfold is_space; lia). }
      rewrite SK. destruct NU as (NE & FD & V & _).
      destruct s as [|c s]; [easy|]. inversion_clear FD as [|? ? LC FD'].
      cbn [app scan_sign]. replace (c =? 45) with false by lia. replace (c =? 43) with false by lia.
      change (c :: s ++ 10 :: rest) with ((c :: s) ++ 10 :: rest).
      rewrite scan_digits_dec by auto. cbn [scan_digits]. change (hex_val 10) with (@None Z). cbv iota.
      cbn [length Nat.add Nat.eqb]. unfold value in V. rewrite V.
      rewrite Z.min_r by lia. now rewrite Z.mod_small by lia. }
    pose proof (scan_lit_app (str "Tgid:") (tab ++ s ++ 10 :: rest)) as SL.
    cbn [tgid_loop]. rewrite SL, SD. rewrite s32_small by lia. reflexivity.
  - destruct fuel as [|fuel]; [easy|]. cbn [concat]. rewrite <- app_assoc, line_skipped by exact SL.
    apply IH. cbn in LF. lia.
Qed.

Lemma concat_len_lines ls : Forall status_line ls -> (length ls <= length (concat ls))%nat.
Proof.
  induction 1 as [|l ls (b & -> & _) F IH]; [auto|]. cbn. rewrite !app_length. cbn. lia.
Qed.

(** ** What is printed *)

Lemma nth_hex d : 0 <= d < 16 -> nth_error (str "0123456789abcdef") (Z.to_nat d) = Some (hex_char d).
Proof.
  intros H. assert (E : exists k, (k < 16)%nat /\ d = Z.of_nat k) by (exists (Z.to_nat d); lia).
  destruct E as (k & LK & ->). rewrite Nat2Z.id.
  do 16 (destruct k as [|k]; [reflexivity|]). lia.
Qed.

Lemma shown_app a b s t : shown a s -> shown b t -> shown (a ++ b) (s ++ t).
Proof.
  induction 1; intros; cbn [app]; auto; [constructor; auto|].
  rewrite <- app_assoc. apply sh_hex; auto.
Qed.
Lemma show_bytes bs : Forall (fun c => 0 <= c < 256) bs -> shown bs (flat_map show_byte bs).
Proof.
  induction 1 as [|c bs L F IH]; [constructor|]. cbn [flat_map]. unfold show_byte at 1.
  unfold is_print. destruct ((32 <=? c) && (c <=? 126)) eqn:P.
  - replace (negb (c =? 10)) with true by lia. cbn [andb app]. constructor; [unfold printable; lia|exact IH].
  - rewrite andb_false_r. cbn [app].
    apply (sh_hex c (hex_char (c / 16)) (hex_char (c mod 16))); auto.
    + unfold printable. lia.
    + apply nth_hex. split; [apply Z.div_pos; lia|apply Z.div_lt_upper_bound; lia].
    + apply nth_hex. apply Z.mod_pos_bound. lia.
Qed.
