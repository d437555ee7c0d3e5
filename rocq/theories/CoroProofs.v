(** Proofs about the coroutines. *)
From Coq Require Import ZArith List Bool Lia ZifyBool ZifyNat.
From Verif Require Import Base BaseProofs RemoteModel PeekProofs CoroModel CoroSpec.
Import ListNotations.
Open Scope Z_scope.

Lemma hi_bits x i : word_ok x -> 64 <= i -> Z.testbit x i = false.
Proof.
  intros [H1 H2] Hi. destruct (Z.eq_dec x 0) as [-> |]; [apply Z.bits_0|].
  apply Z.bits_above_log2; [lia|]. apply Z.lt_le_trans with 64; [|lia]. apply Z.log2_lt_pow2; lia.
Qed.
Lemma bits_word x : 0 <= x -> (forall i, 64 <= i -> Z.testbit x i = false) -> word_ok x.
Proof.
  intros H0 H. split; [exact H0|]. destruct (Z.eq_dec x 0) as [-> |]; [lia|].
  apply Z.log2_lt_pow2; [lia|]. destruct (Z_lt_ge_dec (Z.log2 x) 64) as [|G]; [assumption|].
  specialize (H (Z.log2 x) ltac:(lia)). rewrite Z.bit_log2 in H by lia. discriminate.
Qed.
Lemma lxor_word a b : word_ok a -> word_ok b -> word_ok (Z.lxor a b).
Proof.
  intros A B. apply bits_word.
  - apply Z.lxor_nonneg. destruct A, B; lia.
  - intros i Hi. rewrite Z.lxor_spec, !hi_bits by auto. reflexivity.
Qed.
Lemma u64_bits x i : 0 <= i -> Z.testbit (u64 x) i = (i <? 64) && Z.testbit x i.
Proof.
  intros Hi. unfold u64. destruct (i <? 64) eqn:E.
  - rewrite Z.mod_pow2_bits_low by lia. reflexivity.
  - rewrite Z.mod_pow2_bits_high by lia. reflexivity.
Qed.
Lemma mangle_word p k : word_ok p -> word_ok k -> word_ok (mangle p k).
Proof.
  intros A B. unfold mangle, rol17. pose proof (lxor_word _ _ A B) as C. set (x := Z.lxor p k) in *.
  destruct C as [C1 C2].
  apply bits_word.
  - apply Z.lor_nonneg. split; [unfold u64; apply Z.mod_pos_bound; lia|apply Z.shiftr_nonneg; lia].
  - intros i Hi. rewrite Z.lor_spec, u64_bits, Z.shiftr_spec by lia.
    replace (i <? 64) with false by lia. cbn. apply hi_bits; [split; lia|lia].
Qed.
Theorem demangle_mangle p k : word_ok p -> word_ok k -> ptr_demangle (mangle p k) k = p.
Proof.
  intros A B. unfold ptr_demangle, mangle, rol17. pose proof (lxor_word _ _ A B) as C. set (x := Z.lxor p k) in *.
  assert (R : Z.lor (Z.shiftr (Z.lor (u64 (Z.shiftl x 17)) (Z.shiftr x 47)) 17)
                (u64 (Z.shiftl (Z.lor (u64 (Z.shiftl x 17)) (Z.shiftr x 47)) 47)) = x).
  { apply Z.bits_inj'. intros i Hi.
    rewrite Z.lor_spec, Z.shiftr_spec, Z.lor_spec, !u64_bits, !Z.shiftr_spec by lia.
    destruct (Z_lt_ge_dec i 64) as [L|G].
    - replace (i <? 64) with true by lia. rewrite !Z.shiftl_spec by lia.
      destruct (Z_lt_ge_dec i 47) as [L2|G2].
      + replace (i + 17 <? 64) with true by lia. rewrite (Z.testbit_neg_r _ (i - 47)) by lia.
        rewrite (hi_bits x (i + 17 + 47)) by (auto; lia).
        replace (i + 17 - 17) with i by lia. cbn [andb]. rewrite !orb_false_r. reflexivity.
      + replace (i + 17 <? 64) with false by lia. rewrite Z.lor_spec, u64_bits, Z.shiftr_spec by lia.
        rewrite Z.shiftl_spec by lia. rewrite (Z.testbit_neg_r _ (i - 47 - 17)) by lia.
        rewrite (hi_bits x (i + 17 + 47)) by (auto; lia).
        replace (i - 47 + 47) with i by lia. rewrite andb_false_r. reflexivity.
    - replace (i <? 64) with false by lia. rewrite (hi_bits x i) by (auto; lia).
      replace (i + 17 <? 64) with false by lia. rewrite (hi_bits x (i + 17 + 47)) by (auto; lia). reflexivity. }
  rewrite R. unfold x. rewrite Z.lxor_assoc, Z.lxor_nilpotent, Z.lxor_0_r. reflexivity.
Qed.

(** ** Reading a buffer *)
Lemma words_concat ws rest n : Forall word_ok ws -> (length ws <= n)%nat ->
  firstn (length ws) (words (concat (map (le_bytes 8) ws) ++ rest) n) = ws.
Proof.
  intros F. revert n. induction F as [|w ws Hw F IH]; intros n Hn; [destruct n; reflexivity|].
  destruct n as [|n]; [cbn in Hn; lia|]. cbn [map concat length words]. rewrite firstn_cons, <- app_assoc.
  assert (L : length (le_bytes 8 w) = 8%nat) by apply le_bytes_length.
  rewrite firstn_app, L, Nat.sub_diag, firstn_O, app_nil_r, firstn_all2 by lia.
  rewrite skipn_app, L, Nat.sub_diag, skipn_O, skipn_all2 by lia. cbn [app].
  rewrite le_val_bytes, Z.mod_small by (destruct Hw; cbn; lia). f_equal. apply IH. cbn in Hn. lia.
Qed.
Lemma words_length bs n : length (words bs n) = n.
Proof. revert bs. induction n; intros; cbn; auto. Qed.

(** The eight words of a context, as they are shown to libunwind *)
Definition plain (c : context) : list Z :=
  [cx_rbx c; cx_rbp c; cx_r12 c; cx_r13 c; cx_r14 c; cx_r15 c; cx_rsp c; cx_rip c].
Lemma env_right m k a c bs : word_ok k -> context_ok c -> saved m k a c -> mread m (u64 a) env_size = Some bs ->
  exists tl, demangle_env k (words bs 25) = plain c ++ tl /\ length tl = 17%nat.
Proof.
  intros Hk Hc [rest Hs] E. unfold env_size in E. assert (bs = concat (map (le_bytes 8) (setjmp k c)) ++ rest) as -> by congruence. clear E.
  assert (F : Forall word_ok (setjmp k c)).
  { destruct Hc as (H1 & H2 & H3 & H4 & H5 & H6 & H7 & H8). unfold setjmp.
    repeat constructor; try (apply mangle_word; assumption); match goal with |- _ <= ?x => match goal with H : word_ok x |- _ => destruct H; lia end
    | |- ?x < _ => match goal with H : word_ok x |- _ => destruct H; lia end end. }
  pose proof (words_concat (setjmp k c) rest 25 F ltac:(cbn; lia)) as W.
  pose proof (words_length (concat (map (le_bytes 8) (setjmp k c)) ++ rest) 25) as L.
  set (ws := words _ 25) in *. cbn [length setjmp] in W. clearbody ws.
  rewrite <- (firstn_skipn 8 ws), W. exists (skipn 8 ws). split.
  - unfold setjmp, demangle_env, demangle_at, plain. cbn [firstn skipn app].
    destruct Hc as (H1 & H2 & H3 & H4 & H5 & H6 & H7 & H8).
    rewrite !demangle_mangle by assumption. reflexivity.
  - rewrite skipn_length. lia.
Qed.
Definition shows (c : context) (env : list Z) : Prop := exists tl, env = plain c ++ tl /\ length tl = 17%nat.
Lemma shows_register c env reg v : shows c env -> register c reg v -> access_reg CX86 env reg = Some v.
Proof.
  intros (tl & -> & _) H. unfold register in H.
  repeat (destruct H as [[-> ->]|H]; [reflexivity|]). destruct H as [-> ->]. reflexivity.
Qed.

(** ** The monad *)
Lemma read_word_ok n a s v s' : read_word n a s = (Ret v, s') ->
  exists bs, mread (sm s) (u64 a) n = Some bs /\ v = le_val bs /\ sm s' = sm s.
Proof.
  unfold read_word, bind, mem_read. destruct (pop s) as [ans s1] eqn:P.
  assert (S1 : sm s1 = sm s) by (unfold pop in P; destruct (so s); injection P as <- <-; reflexivity).
  destruct ans; [|discriminate|discriminate]. destruct (mread (sm s1) (u64 a) n) as [bs|] eqn:R; [|discriminate].
  unfold ret. intros H. injection H as <- <-. rewrite S1 in R. eauto.
Qed.
Lemma read_word_stored a s v s' w : read_word 8 a s = (Ret v, s') -> stored (sm s) a w -> v = w /\ sm s' = sm s.
Proof.
  intros H [Hw Hs]. destruct (read_word_ok _ _ _ _ _ H) as (bs & R & -> & E). assert (bs = le_bytes 8 w) as -> by congruence.
  split; [|exact E]. rewrite le_val_bytes. apply Z.mod_small. destruct Hw. cbn. lia.
Qed.
Lemma read_env_ok a s v s' : read_env a s = (Ret v, s') ->
  exists bs, mread (sm s) (u64 a) env_size = Some bs /\ v = words bs 25 /\ sm s' = sm s.
Proof.
  unfold read_env, bind, mem_read. destruct (pop s) as [ans s1] eqn:P.
  assert (S1 : sm s1 = sm s) by (unfold pop in P; destruct (so s); injection P as <- <-; reflexivity).
  destruct ans; [|discriminate|discriminate]. destruct (mread (sm s1) (u64 a) env_size) as [bs|] eqn:R; [|discriminate].
  unfold ret. intros H. injection H as <- <-. rewrite S1 in R. eauto.
Qed.
Lemma bind_ret {A B} (x : M A) (f : A -> M B) s b s' : bind x f s = (Ret b, s') ->
  exists a s1, x s = (Ret a, s1) /\ f a s1 = (Ret b, s').
Proof. unfold bind. destruct (x s) as [[a| | | |] s1]; intros H; try discriminate. eauto. Qed.

(** ** The list *)
Theorem walk_right fuel k lo eo a s l s' acc cs : word_ok k -> chain (sm s) k lo eo a cs ->
  walk fuel k lo eo a acc s = (Ret l, s') ->
  exists found, l = acc ++ found /\ Forall2 shows cs found /\ sm s' = sm s.
Proof.
  intros Hk. revert a s acc cs. induction fuel as [|f IH]; intros a s acc cs C H; cbn [walk] in H.
  - destruct (a =? 0) eqn:E; [|discriminate H]. unfold ret in H. injection H as <- <-.
    destruct C; [|lia]. exists []. rewrite app_nil_r. auto.
  - destruct (a =? 0) eqn:E.
    { unfold ret in H. injection H as <- <-. destruct C; [|lia]. exists []. rewrite app_nil_r. auto. }
    destruct C as [|a next c cs Ha Hc Hsv Hst C]; [lia|].
    apply bind_ret in H as (regs & s1 & R1 & H). apply bind_ret in H as (nx & s2 & R2 & H).
    apply read_env_ok in R1 as (bs & Rb & -> & E1). rewrite <- E1 in Hst.
    destruct (read_word_stored _ _ _ _ _ R2 Hst) as [-> E2].
    destruct (env_right _ _ _ _ _ Hk Hc Hsv Rb) as (tl & Ed & Lt).
    assert (E3 : sm s2 = sm s) by congruence. rewrite <- E3 in C.
    destruct (IH _ _ _ _ C H) as (found & -> & F & Es).
    exists (demangle_env k (words bs 25) :: found). rewrite <- app_assoc. split; [reflexivity|].
    split; [|congruence]. constructor; [exists tl; auto|exact F].
Qed.
Lemma read_env_go a s : so s = [] -> (exists c k, saved (sm s) k a c) -> exists v, read_env a s = (Ret v, s).
Proof.
  intros Hso (c & k & rest & R). unfold read_env, bind, mem_read, pop. rewrite Hso. unfold env_size. rewrite R. eexists. reflexivity.
Qed.
Lemma read_word_go a s w : so s = [] -> stored (sm s) a w -> read_word 8 a s = (Ret w, s).
Proof.
  intros Hso [Hw R]. unfold read_word, bind, mem_read, pop. rewrite Hso, R. unfold ret. rewrite le_val_bytes, Z.mod_small; [reflexivity|].
  destruct Hw. cbn. lia.
Qed.
Theorem walk_ends k lo eo a s acc cs : so s = [] -> chain (sm s) k lo eo a cs ->
  exists l, walk (length cs) k lo eo a acc s = (Ret l, s).
Proof.
  intros Hso C. remember (sm s) as m eqn:Em. revert acc. induction C as [|a next c cs Ha Hc Hsv Hst C IH]; intros acc; subst m.
  - cbn. unfold ret. eauto.
  - cbn [length walk]. replace (a =? 0) with false by lia. unfold bind.
    destruct (read_env_go (a + eo) s Hso) as [v ->]; [eauto|].
    rewrite (read_word_go _ _ _ Hso Hst). apply IH.
Qed.

(** ** The heap *)
Lemma peek_stored pg it a w s : so s = [] -> iter_ok pg (sm s) it -> 8 <= pg -> 0 <= a -> a + pg <= 2 ^ 63 ->
  stored (sm s) a w -> exists it', peek_ulong pg it a s = (Ret (it', w), s) /\ iter_ok pg (sm s) it'.
Proof.
  intros Hso I Hp H0 H1 [Hw R].
  assert (U : u64 a = a). { unfold u64. apply Z.mod_small. change (2 ^ 63) with 9223372036854775808 in *. change (2 ^ 64) with 18446744073709551616. lia. }
  rewrite U in R.
  assert (Mp : mapped (sm s) a 8).
  { intros x Hx. apply mread_spec in R as [_ D]. unfold in_range in Hx. intros N. specialize (D x ltac:(unfold in_range; lia)). congruence. }
  destruct (peek_spec pg it 8 a s Hso I ltac:(lia) Mp H0 H1) as (it' & bs & E & I' & Rb).
  exists it'. split; [|exact I']. unfold peek_ulong, bind. rewrite U, E. unfold ret.
  change (Z.to_nat 8) with 8%nat in Rb. assert (bs = le_bytes 8 w) as -> by congruence.
  rewrite le_val_bytes, Z.mod_small; [reflexivity|]. destruct Hw. cbn. lia.
Qed.
Lemma read_env_saved a s k c : so s = [] -> word_ok k -> context_ok c -> saved (sm s) k a c ->
  exists v, read_env a s = (Ret v, s) /\ shows c (demangle_env k v).
Proof.
  intros Hso Hk Hc Hs. destruct (read_env_go a s Hso) as [v E]; [eauto|]. exists v. split; [exact E|].
  destruct (read_env_ok _ _ _ _ E) as (bs & Rb & -> & _).
  destruct (env_right _ _ _ _ _ Hk Hc Hs Rb) as (tl & Ed & Lt). exists tl. auto.
Qed.
Theorem scan_right n pg k start it cur s acc cs : so s = [] -> word_ok k -> 64 <= pg -> 0 <= cur ->
  cur + pg * Z.of_nat n + pg <= 2 ^ 63 -> iter_ok pg (sm s) it -> heap (sm s) k start pg cur n cs ->
  exists found, scan n pg k start it cur acc s = (Ret (acc ++ found), s) /\ Forall2 shows cs found.
Proof.
  intros Hso Hk Hp. revert it cur acc cs. induction n as [|n IH]; intros it cur acc cs H0 H1 I Hh.
  - inversion Hh; subst. exists []. rewrite app_nil_r. split; [reflexivity|constructor].
  - assert (Hb : pg * Z.of_nat (S n) = pg * Z.of_nat n + pg) by lia. rewrite Hb in H1.
    assert (Hn : 0 <= pg * Z.of_nat n) by lia.
    cbn [scan]. unfold bind at 1.
    inversion Hh as [|cur' n' c cs' Hst Hh' | cur' n' cs' Hno Hh']; subst; clear Hh.
    + destruct Hst as (v & S1 & S2 & S3 & S4 & Sv & Hc).
      destruct (peek_stored pg it (cur + pg - 24) start s Hso I ltac:(lia) ltac:(lia) ltac:(lia) S1) as (it1 & -> & I1).
      rewrite Z.eqb_refl. cbn [negb]. unfold bind at 1.
      destruct (peek_stored pg it1 (cur + pg - 32) _ s Hso I1 ltac:(lia) ltac:(lia) ltac:(lia) S2) as (it2 & -> & I2).
      rewrite Z.eqb_refl. cbn [negb]. unfold bind at 1.
      destruct (peek_stored pg it2 (cur + pg - 64) _ s Hso I2 ltac:(lia) ltac:(lia) ltac:(lia) S3) as (it3 & -> & I3).
      unfold bind at 1.
      destruct (peek_stored pg it3 (cur + pg - 56) _ s Hso I3 ltac:(lia) ltac:(lia) ltac:(lia) S4) as (it4 & -> & I4).
      rewrite Z.eqb_refl. cbn [negb]. unfold bind at 1.
      destruct (read_env_saved (v + 56) s k c Hso Hk Hc Sv) as (e & -> & He).
      destruct (IH it4 (cur + pg) (acc ++ [demangle_env k e]) cs' ltac:(lia) ltac:(lia) I4 Hh') as (found & -> & F).
      exists (demangle_env k e :: found). rewrite <- app_assoc. split; [reflexivity|constructor; auto].
    + destruct Hno as (a & b & c & d & S1 & S2 & S3 & S4 & D).
      destruct (peek_stored pg it (cur + pg - 24) a s Hso I ltac:(lia) ltac:(lia) ltac:(lia) S1) as (it1 & -> & I1).
      destruct (a =? start) eqn:Ea; cbn [negb]; [|apply IH; auto; lia]. unfold bind at 1.
      destruct (peek_stored pg it1 (cur + pg - 32) _ s Hso I1 ltac:(lia) ltac:(lia) ltac:(lia) S2) as (it2 & -> & I2).
      destruct (b =? u64 (cur + pg - 16)) eqn:Eb; cbn [negb]; [|apply IH; auto; lia]. unfold bind at 1.
      destruct (peek_stored pg it2 (cur + pg - 64) _ s Hso I2 ltac:(lia) ltac:(lia) ltac:(lia) S3) as (it3 & -> & I3).
      unfold bind at 1.
      destruct (peek_stored pg it3 (cur + pg - 56) _ s Hso I3 ltac:(lia) ltac:(lia) ltac:(lia) S4) as (it4 & -> & I4).
      destruct (c =? d) eqn:Ec; cbn [negb]; [lia|apply IH; auto; lia].
Qed.

(** A list that comes back to itself *)
Lemma walk_cycle fuel k lo eo a s acc c : so s = [] -> a <> 0 -> saved (sm s) k (a + eo) c -> stored (sm s) (a + lo) a ->
  walk fuel k lo eo a acc s = (Hang, s).
Proof.
  intros Hso Ha Hs Hst. revert acc. induction fuel as [|f IH]; intros acc; cbn [walk]; replace (a =? 0) with false by lia; [reflexivity|].
  unfold bind. destruct (read_env_go (a + eo) s Hso) as [v ->]; [eauto|].
  rewrite (read_word_go _ _ _ Hso Hst). apply IH.
Qed.
