(** The coroutines of a process. *)
From Coq Require Import ZArith List Bool Lia ZifyBool ZifyNat.
From Verif Require Import Base BaseProofs RemoteModel PeekProofs CoroModel CoroSpec CoroProofs.
Import ListNotations.
Open Scope Z_scope.

Local Ltac wok := split; [vm_compute; discriminate|vm_compute; reflexivity].

(** ** C50: saved registers are decoded correctly *)
Theorem C50_demangle p k : word_ok p -> word_ok k -> ptr_demangle (mangle p k) k = p.
Proof. apply demangle_mangle. Qed.
Print Assumptions C50_demangle.
Example C50_demangle_case :
  word_ok 0x7ffff10f2110 /\ word_ok 0x927f952074baf100 /\ mangle 0x7ffff10f2110 0x927f952074baf100 = 15402041807506318591.
Proof. split; [wok|]. split; [wok|]. vm_compute. reflexivity. Qed.

(** What libunwind is told of a context saved on x86-64: its registers. *)
Theorem C50_registers m k a c bs reg v : word_ok k -> context_ok c -> saved m k a c ->
  mread m (u64 a) 200 = Some bs -> register c reg v ->
  access_reg CX86 (demangle_env k (words bs 25)) reg = Some v.
Proof. intros Hk Hc Hs Hb Hr. eapply shows_register; [|exact Hr]. exact (env_right m k a c bs Hk Hc Hs Hb). Qed.
Print Assumptions C50_registers.

Definition cx1 : context := {| cx_rbx := 3; cx_rbp := 0x7ffc1000; cx_r12 := 12; cx_r13 := 13; cx_r14 := 14; cx_r15 := 15;
  cx_rsp := 0x7ffc0f00; cx_rip := 0x401234 |}.
Definition cx2 : context := {| cx_rbx := 0; cx_rbp := 0x7ffd1000; cx_r12 := 0; cx_r13 := 0; cx_r14 := 0; cx_r15 := 2 ^ 64 - 1;
  cx_rsp := 0x7ffd0f00; cx_rip := 0x405678 |}.
Definition guard : Z := 0x927f952074baf100.
(** Memory from 0 to 0x4000 *)
Definition zeros : mem := fun a => if (0 <=? a) && (a <? 0x4000) then Some 0 else None.
Definition put (m : mem) (a v : Z) : mem := mset m a (le_bytes 8 v).
Definition put_env (m : mem) (a : Z) (c : context) : mem := mset m a (concat (map (le_bytes 8) (setjmp guard c))).
(** The variables at 0x100, 0x108, 0x110; the guard at 0x200 + 0x30; two coroutines, at 0x1000 and 0x1800, the
    next at 8, the buffer at 16 *)
Definition listed_mem : mem :=
  put_env (put_env (put (put (put (put (put (put zeros 0x100 0x1000) 0x108 8) 0x110 16) 0x230 guard) 0x1008 0x1800) 0x1808 0) 0x1010 cx1) 0x1810 cx2.
Lemma cx1_ok : context_ok cx1. Proof. unfold context_ok, word_ok, cx1. cbn. lia. Qed.
Lemma cx2_ok : context_ok cx2. Proof. unfold context_ok, word_ok, cx2. cbn. lia. Qed.
Example C50_registers_case : word_ok guard /\ context_ok cx1 /\ saved listed_mem guard 0x1010 cx1 /\ register cx1 16 0x401234.
Proof.
  split; [wok|]. split; [apply cx1_ok|]. split.
  - eexists. vm_compute. reflexivity.
  - unfold register. do 7 right. split; reflexivity.
Qed.

(** AArch64: glibc leaves x19 ... x28 in the first ten words.  The frame pointer x29 is
    taken from the word of x20, demangled, and x19 from the thread. *)
Theorem C50_aarch64_refuted : exists x w k, aarch64_words x w /\
  access_reg CAarch64 (demangle_env k w) 29 <> Some (x 29) /\ access_reg CAarch64 (demangle_env k w) 19 = None.
Proof.
  exists (fun i => i), ([19; 20; 21; 22; 23; 24; 25; 26; 27; 28; 29; 30; 0; 31] ++ repeat 0 8), 0.
  split; [split; [reflexivity|]|split; [vm_compute; discriminate|reflexivity]].
  intros i Hi. assert (H : i = 0 \/ i = 1 \/ i = 2 \/ i = 3 \/ i = 4 \/ i = 5 \/ i = 6 \/ i = 7 \/ i = 8 \/ i = 9) by lia.
  repeat (destruct H as [-> |H]; [reflexivity|]). subst. reflexivity.
Qed.
Print Assumptions C50_aarch64_refuted.
(** RISC-V: the words are not mangled and three of them are demangled all the same, with
    a guard that was never set. *)
Theorem C50_riscv_refuted : exists x w k, riscv_words x w /\ access_reg CRiscv (demangle_env k w) 8 <> Some (x 8).
Proof.
  exists (fun i => i). eexists. exists 0. split; [reflexivity|]. vm_compute. discriminate.
Qed.
Print Assumptions C50_riscv_refuted.
(** The other registers are right. *)
Theorem C50_riscv_others x w k reg : riscv_words x w ->
  (reg = 32 \/ reg = 9 \/ 18 <= reg <= 20 \/ 23 <= reg <= 27 \/ reg = 2) -> access_reg CRiscv (demangle_env k w) reg = Some (x reg).
Proof.
  unfold riscv_words. intros -> H.
  assert (E : reg = 32 \/ reg = 9 \/ reg = 18 \/ reg = 19 \/ reg = 20 \/ reg = 23 \/ reg = 24 \/ reg = 25 \/ reg = 26 \/ reg = 27 \/ reg = 2) by lia.
  clear H. repeat (destruct E as [-> |E]; [reflexivity|]). subst. reflexivity.
Qed.
Print Assumptions C50_riscv_others.

(** Only the registers kept over calls are answered from the buffer (on x86-64 exactly those
    setjmp saves): any other is left to libunwind, whose answer is of the thread. *)
Definition answered (a : carch) : list Z :=
  match a with
  | CX86 => [3; 6; 7; 12; 13; 14; 15; 16]
  | CAarch64 => [9; 29; 12; 13; 14; 15; 31; 32]
  | CRiscv => [32; 8; 9; 18; 19; 20; 21; 22; 23; 24; 25; 26; 27; 2]
  | CLoong => [32; 23; 24; 25; 26; 27; 28; 29; 30; 31; 3]
  end.
Theorem C50_only_saved a env reg v : access_reg a env reg = Some v -> In reg (answered a).
Proof.
  unfold access_reg, slot, answered. destruct a; intros H;
    repeat match type of H with context [if ?b then _ else _] => let E := fresh in destruct b eqn:E; cbn [option_map] in H end;
    try discriminate; rewrite ?andb_true_iff, ?Z.eqb_eq, ?Z.leb_le in *; cbn [In]; lia.
Qed.
Print Assumptions C50_only_saved.
Example C50_only_saved_case : access_reg CX86 [1; 2; 3; 4; 5; 6; 7; 8] 13 = Some 4 /\ access_reg CX86 [1; 2; 3; 4; 5; 6; 7; 8] 8 = None.
Proof. split; reflexivity. Qed.

(** ** C88: the coroutines of a known program are all found, or the operation is refused *)
(** What is known of a coroutine of context [c]: every register of it *)
Definition known (c : context) (env : list Z) : Prop := forall reg v, register c reg v -> access_reg CX86 env reg = Some v.

Lemma shows_known cs found : Forall2 shows cs found -> Forall2 known cs found.
Proof. induction 1; constructor; auto. intros reg v Hr. eapply shows_register; eauto. Qed.
Lemma u64_32 x : 0 <= x < 2 ^ 31 -> s32 x = x.
Proof. intros H. unfold s32, sext. change (2 ^ 31) with 2147483648 in *. cbn. rewrite Z.mod_small by lia. destruct (_ <? _) eqn:E; lia. Qed.

(** An int in memory *)
Definition stored32 (m : mem) (a v : Z) : Prop := 0 <= v < 2 ^ 31 /\ mread m (u64 a) 4 = Some (le_bytes 4 v).

(** The answers of the kernel are any: when the search succeeds, it has found exactly the
    coroutines of the list, in order, with their registers, and changed nothing. *)
Theorem C88_listed fuel fs junk a1 a2 a3 s s' l head lo eo k cs :
  stored (sm s) a1 head -> stored32 (sm s) a2 lo -> stored32 (sm s) a3 eo -> stored (sm s) (fs + 48) k ->
  chain (sm s) k lo eo head cs ->
  find_listed fuel CX86 (Some fs) junk true (Some a1, Some a2, Some a3) s = (Ret (Some l), s') ->
  Forall2 known cs l /\ sm s' = sm s.
Proof.
  intros S1 [B2 S2] [B3 S3] S4 C H. unfold find_listed in H. cbn [negb] in H.
  apply bind_ret in H as (h & s1 & R1 & H). destruct (read_word_stored _ _ _ _ _ R1 S1) as [-> E1].
  apply bind_ret in H as (v2 & s2 & R2 & H). apply read_word_ok in R2 as (b2 & R2 & -> & E2). rewrite E1, S2 in R2.
  assert (b2 = le_bytes 4 lo) as -> by congruence.
  apply bind_ret in H as (v3 & s3 & R3 & H). apply read_word_ok in R3 as (b3 & R3 & -> & E3). rewrite E2, E1, S3 in R3.
  assert (b3 = le_bytes 4 eo) as -> by congruence.
  rewrite !le_val_bytes in H. change (2 ^ 31) with 2147483648 in *.
  rewrite !Z.mod_small in H by (cbn; lia). rewrite !u64_32 in H by lia.
  apply bind_ret in H as (k' & s4 & R4 & H). cbn [get_ptr_guard] in R4.
  assert (E30 : sm s3 = sm s) by congruence. rewrite <- E30 in S4.
  destruct (read_word_stored _ _ _ _ _ R4 S4) as [-> E4].
  apply bind_ret in H as (l' & s5 & W & H). unfold ret in H. injection H as <- <-.
  assert (E40 : sm s4 = sm s) by congruence. rewrite <- E40 in C.
  destruct (walk_right _ _ _ _ _ _ _ _ _ _ (proj1 S4) C W) as (found & -> & F & E5). cbn [app].
  split; [apply shows_known, F|congruence].
Qed.
Print Assumptions C88_listed.

Lemma put_put_chain : chain listed_mem guard 8 16 0x1000 [cx1; cx2].
Proof.
  eapply ch_next with (next := 0x1800); [lia|apply cx1_ok| | |].
  - eexists. vm_compute. reflexivity.
  - split; [wok|]. vm_compute. reflexivity.
  - eapply ch_next with (next := 0); [lia|apply cx2_ok| | |apply ch_end].
    + eexists. vm_compute. reflexivity.
    + split; [wok|]. vm_compute. reflexivity.
Qed.
Definition st_of (m : mem) (o : list answer) : st := {| sm := m; sx := fun _ => false; so := o |}.
Example C88_listed_case :
  stored listed_mem 0x100 0x1000 /\ stored32 listed_mem 0x108 8 /\ stored32 listed_mem 0x110 16 /\ stored listed_mem (0x200 + 48) guard /\
  chain listed_mem guard 8 16 0x1000 [cx1; cx2] /\
  exists l, find_listed 2 CX86 (Some 0x200) 0 true (Some 0x100, Some 0x108, Some 0x110) (st_of listed_mem []) = (Ret (Some l), st_of listed_mem []).
Proof.
  split; [split; [wok|vm_compute; reflexivity]|].
  split; [split; [wok|vm_compute; reflexivity]|].
  split; [split; [wok|vm_compute; reflexivity]|].
  split; [split; [wok|vm_compute; reflexivity]|].
  split; [apply put_put_chain|]. unfold find_listed. cbn [negb]. unfold bind at 1.
  rewrite (read_word_go 0x100 (st_of listed_mem []) 0x1000 eq_refl) by (split; [wok|vm_compute; reflexivity]).
  replace (read_word 4 264) with (read_word 4 264) by reflexivity.
  assert (W4 : forall a v, 0 <= v < 2 ^ 31 -> mread listed_mem (u64 a) 4 = Some (le_bytes 4 v) ->
            read_word 4 a (st_of listed_mem []) = (Ret v, st_of listed_mem [])).
  { intros a v Hv R. unfold read_word, bind, mem_read, pop, st_of. cbn [so sm]. rewrite R. unfold ret. rewrite le_val_bytes, Z.mod_small; [reflexivity|].
    change (2 ^ 31) with 2147483648 in Hv. cbn. lia. }
  unfold bind at 1. rewrite (W4 0x108 8) by (split || vm_compute; auto; try reflexivity; discriminate).
  unfold bind at 1. rewrite (W4 0x110 16) by (split || vm_compute; auto; try reflexivity; discriminate).
  cbn [get_ptr_guard]. unfold bind at 1.
  rewrite (read_word_go (0x200 + 48) (st_of listed_mem []) guard eq_refl) by (split; [wok|vm_compute; reflexivity]).
  rewrite !u64_32 by (wok). unfold bind at 1.
  destruct (walk_ends guard 8 16 0x1000 (st_of listed_mem []) [] [cx1; cx2] eq_refl put_put_chain) as [l E]. cbn [length] in E. rewrite E.
  exists l. reflexivity.
Qed.

(** The heap, when no read fails: exactly the coroutines whose stacks end at the end of a
    page of it. *)
Theorem C88_scan_partial pg fs junk test tcmalloc lo n start s k cs :
  so s = [] -> 64 <= pg -> 0 <= lo -> lo + pg * Z.of_nat n + pg <= 2 ^ 63 -> tcmalloc = true \/ test = true ->
  stored (sm s) (fs + 48) k -> heap (sm s) k start pg lo n cs ->
  exists l, find_scanned CX86 pg (Some fs) junk test tcmalloc (Some (lo, lo + pg * Z.of_nat n)) (Some start) s = (Ret (Some l), s)
    /\ Forall2 known cs l.
Proof.
  intros Hso Hp Hlo Hhi Ht Hk Hh. unfold find_scanned.
  replace (negb (tcmalloc || test)) with false by (destruct Ht as [-> | ->]; [reflexivity|destruct tcmalloc; reflexivity]).
  unfold bind at 1. cbn [get_ptr_guard]. rewrite (read_word_go _ _ _ Hso Hk). unfold bind at 1.
  replace (Z.to_nat ((lo + pg * Z.of_nat n - lo + pg - 1) / pg)) with n.
  2:{ replace (lo + pg * Z.of_nat n - lo + pg - 1) with (Z.of_nat n * pg + (pg - 1)) by lia.
      rewrite Z.div_add_l by lia. rewrite Z.div_small by lia. lia. }
  destruct (scan_right n pg k start (iter_init pg) lo s [] cs Hso (proj1 Hk) Hp Hlo Hhi (iter_init_ok pg (sm s) ltac:(lia)) Hh) as (found & -> & F).
  exists found. split; [reflexivity|apply shows_known, F].
Qed.
Print Assumptions C88_scan_partial.

(** Three pages of 0x100 from 0x1000 on: the second is the end of a coroutine's stack; the
    coroutine is at 0x2000. *)
Definition heap_mem : mem :=
  put_env (put (put (put (put (put zeros 0x230 guard) 0x11e8 0x7777) 0x11e0 0x11f0) 0x11c0 0x2000) 0x11c8 0x2000) 0x2038 cx1.
Lemma heap_mem_ok : heap heap_mem guard 0x7777 0x100 0x1000 3 [cx1].
Proof.
  assert (N : forall p, (forall d, d = 24 \/ d = 32 \/ d = 64 \/ d = 56 -> mread heap_mem (u64 (p - d)) 8 = Some (le_bytes 8 0)) -> no_stack_end heap_mem 0x7777 p).
  { intros p H. exists 0, 0, 0, 0. repeat split; try lia; try (apply H; auto). }
  apply hp_other.
  - apply N. intros d [-> |[-> |[-> | ->]]]; vm_compute; reflexivity.
  - apply hp_stack; [|apply hp_other; [|apply hp_end]].
    + exists 0x2000. split; [split; [wok|vm_compute; reflexivity]|].
      split; [split; [split; [vm_compute; discriminate|reflexivity]|vm_compute; reflexivity]|].
      split; [split; [wok|vm_compute; reflexivity]|].
      split; [split; [wok|vm_compute; reflexivity]|].
      split; [eexists; vm_compute; reflexivity|apply cx1_ok].
    + apply N. intros d [-> |[-> |[-> | ->]]]; vm_compute; reflexivity.
Qed.
Example C88_scan_case : heap heap_mem guard 0x7777 0x100 0x1000 3 [cx1] /\ stored heap_mem (0x200 + 48) guard.
Proof. split; [apply heap_mem_ok|]. split; [wok|vm_compute; reflexivity]. Qed.

(** A read that fails is not noticed by the scan: it succeeds and has no coroutine. *)
Theorem C88_failed_read_refuted : exists pg fs start lo hi s cs n k,
  heap (sm s) k start pg lo n cs /\ hi = lo + pg * Z.of_nat n /\ stored (sm s) (fs + 48) k /\ cs <> [] /\
  fst (find_scanned CX86 pg (Some fs) 0 false true (Some (lo, hi)) (Some start) s) = Ret (Some []).
Proof.
  exists 0x100, 0x200, 0x7777, 0x1000, 0x1300, (st_of heap_mem [AOk; AOk; AShort 0]), [cx1], 3%nat, guard.
  split; [apply heap_mem_ok|]. split; [reflexivity|].
  split; [split; [wok|vm_compute; reflexivity]|]. split; [discriminate|].
  vm_compute. reflexivity.
Qed.
Print Assumptions C88_failed_read_refuted.

(** A list that comes back to itself is followed for ever. *)
Theorem C88_cycle_refuted : exists s k lo eo a, forall fuel, walk fuel k lo eo a [] s = (Hang, s).
Proof.
  exists (st_of (put listed_mem 0x1008 0x1000) []), guard, 8, 16, 0x1000. intros fuel. apply walk_cycle with (c := cx1); [reflexivity|lia| |].
  - eexists. vm_compute. reflexivity.
  - split; [wok|vm_compute; reflexivity].
Qed.
Print Assumptions C88_cycle_refuted.

(** A running program of the three kinds known: success only if one of the searches found
    the coroutines; refused otherwise. *)
Theorem C88_refused tl ts qemu listed scanned s l s' : tl || ts || qemu = true ->
  coroutines_find false tl ts qemu listed scanned s = (Ret l, s') ->
  listed s = (Ret (Some l), s') \/
  exists s1, scanned s1 = (Ret (Some l), s') /\ (s1 = s \/ listed s = (Ret None, s1)).
Proof.
  intros K H. unfold coroutines_find in H. apply bind_ret in H as (a & s1 & Ra & H).
  assert (Q : (listed s = (Ret a, s1) /\ tl || qemu = true) \/ (a = None /\ s1 = s)).
  { destruct (tl || qemu); [auto|]. unfold ret in Ra. injection Ra as <- <-. auto. }
  destruct a as [la|].
  - unfold ret in H. injection H as <- <-. destruct Q as [[Q _]|[Q _]]; [auto|discriminate].
  - apply bind_ret in H as (b & s2 & Rb & H). destruct b as [lb|].
    + unfold ret in H. injection H as <- <-. right. exists s1.
      split; [|destruct Q as [[Q _]|[_ ->]]; auto].
      destruct (ts || qemu); [exact Rb|discriminate Rb].
    + rewrite K in H. discriminate H.
Qed.
Print Assumptions C88_refused.
(** A program of another kind has no coroutines, whatever is in its memory. *)
Theorem C88_other_program_refuted : exists s head lo eo k cs listed scanned,
  chain (sm s) k lo eo head cs /\ cs <> [] /\ coroutines_find false false false false listed scanned s = (Ret [], s).
Proof.
  exists (st_of listed_mem []), 0x1000, 8, 16, guard, [cx1; cx2], fail, fail.
  split; [apply put_put_chain|]. split; [discriminate|reflexivity].
Qed.
Print Assumptions C88_other_program_refuted.

(** ** C89: looking for coroutines leaves the stack of the process alone *)
(** At the stack pointer and above nothing changes until makecontext is entered ... *)
Theorem C89_above_partial m rsp ra a : rsp <= a -> makecontext_entry m rsp ra a = m a.
Proof.
  intros H. unfold makecontext_entry.
  pose proof (Z.mod_pos_bound rsp 16 ltac:(lia)) as B.
  assert (O : forall m' b v, b + 8 <= a -> mset m' b (le_bytes 8 v) a = m' a).
  { intros m' b v Hb. apply mset_out. unfold in_range, zlen. rewrite le_bytes_length. lia. }
  rewrite !O; [reflexivity| | |]; try lia.
Qed.
Print Assumptions C89_above_partial.
Example C89_above_case : listed_mem 0x2000 <> None /\ makecontext_entry listed_mem 0x2000 7 0x1ff8 = Some 7.
Proof. split; vm_compute; [discriminate|reflexivity]. Qed.
(** ... but the 128 bytes below it, which a function that calls nothing may use, are
    written to. *)
Theorem C89_red_zone_refuted : exists m rsp ra a,
  rsp - 128 <= a < rsp /\ m a <> None /\ makecontext_entry m rsp ra a <> m a.
Proof. exists listed_mem, 0x2000, 7, 0x1ff8. split; [lia|]. split; vm_compute; discriminate. Qed.
Print Assumptions C89_red_zone_refuted.
