From Coq Require Import String.
From Verif Require Import Base BaseProofs StorageModel TextModel TextProofs RemoteModel PtraceModel PtraceRunProofs CoroModel CallModel CallSpec.
Open Scope list_scope.

(** * Running code *)
Section Execute.
Context {regs : Type}.
Variable ent : regs -> regs -> regs.
Variable func : mem -> regs -> bool * mem * regs.
Variable base : Z.
Variable code : list Z.

Lemma getset_inv s b s' : getset s = (Ret b, s') -> sm s' = sm s /\ (so s = [] -> b = true /\ so s' = []).
Proof.
  unfold getset, choice, pop. destruct s as [m x o]. cbn [so sm sx]. destruct o as [|[|k|k] o]; intros H; try discriminate; injection H as <- <-; cbn; (split; [reflexivity|]); intros E; try discriminate; auto.
Qed.
Lemma read_inv a n s bs s' : mem_read a n s = (Ret bs, s') -> sm s' = sm s /\ mread (sm s) a n = Some bs /\ (so s = [] -> so s' = []).
Proof.
  unfold mem_read, pop. destruct s as [m x o]. cbn [so sm]. destruct o as [|[|k|k] o]; cbn [sm]; try discriminate; destruct (mread m a n) as [b|] eqn:E; try discriminate; intros H; injection H as <- <-; repeat split; auto; intros X; discriminate X.
Qed.
Lemma write_inv a bs s u s' : mem_write a bs s = (Ret u, s') -> sm s' = mset (sm s) a bs /\ mapped (sm s) a (zlen bs) /\ (so s = [] -> so s' = []).
Proof.
  unfold mem_write, pop, pwrite. destruct s as [m x o]. cbn [so sm]. destruct o as [|[|k|k] o]; cbn [sm]; try discriminate; destruct (Nat.eqb_spec (maplen m a (length bs)) (length bs)) as [E|]; try discriminate; intros H; injection H as _ <-; cbn;
  (split; [rewrite E, firstn_all; reflexivity|]); (split; [apply maplen_full; exact E|]); auto; intros X; discriminate X.
Qed.
Lemma write_quiet a bs s : so s = [] -> mapped (sm s) a (zlen bs) -> exists s', mem_write a bs s = (Ret tt, s') /\ sm s' = mset (sm s) a bs /\ so s' = [].
Proof.
  intros O Mp. unfold mem_write, pop. rewrite O. rewrite pwrite_full by exact Mp. rewrite Nat.eqb_refl. eexists. split; [reflexivity|]. auto.
Qed.
Lemma read_quiet a n s : so s = [] -> mapped (sm s) a (Z.of_nat n) -> exists bs, mem_read a n s = (Ret bs, s) /\ mread (sm s) a n = Some bs.
Proof. intros O Mp. destruct (mread_some _ _ _ Mp) as (bs & E). exists bs. unfold mem_read, pop. rewrite O, E. auto. Qed.
Lemma getset_quiet s : so s = [] -> getset s = (Ret true, s).
Proof. intros O. unfold getset, choice, pop. rewrite O. reflexivity. Qed.

Lemma write_out a bs s x : ~ in_range x a (zlen bs) -> sm (snd (mem_write a bs s)) x = sm s x.
Proof.
  intros H. unfold mem_write, pop, pwrite. destruct s as [m sx o]. cbn [so sm]. destruct o as [|[|k|k] o]; cbn [sm snd with_sm]; apply mset_out; unfold in_range, zlen in *; rewrite ?firstn_length; lia.
Qed.
Lemma execute_success pregs r0 s r p s' : execute_remote regs ent func base code pregs r0 s = (Ret (0, r, p), s') ->
  exists orig m2, mread (sm s) base (length code) = Some orig /\ mapped (sm s) base (zlen code) /\ func (mset (sm s) base code) (ent pregs r0) = (true, m2, p) /\ r = r0
    /\ (so s = [] -> mapped m2 base (zlen code) -> so s' = [] /\ sm s' = mset m2 base orig)
    /\ (forall x, ~ in_range x base (zlen code) -> sm s' x = m2 x).
Proof.
  unfold execute_remote, bind. intros H.
  destruct (execute_front regs ent func base code pregs r0 s) as [[[[[rv1 r1] p1] o]| | | |] s1] eqn:E; try discriminate.
  assert (X : exists s2, execute_back base o s1 = (Ret tt, s2) /\ rv1 = 0 /\ r1 = r /\ p1 = p /\ s2 = s').
  { destruct (execute_back base o s1) as [[[]| | | |] s2]; try discriminate. unfold ret in H. injection H as -> -> -> ->. eauto 8. }
  destruct X as (s2 & B & -> & -> & -> & ->). clear H. unfold execute_front, bind in E.
  destruct (getset s) as [[ok| | | |] s3] eqn:G1; try discriminate. destruct (getset_inv _ _ _ G1) as (M1 & Q1). destruct ok; cbn [negb] in E; [|discriminate].
  destruct (mem_read base (length code) s3) as [[orig| | | |] s4] eqn:R1; try discriminate. destruct (read_inv _ _ _ _ _ R1) as (M2 & Rd & Q2).
  destruct (mem_write base code s4) as [[u| | | |] s5] eqn:W1; try discriminate. destruct (write_inv _ _ _ _ _ W1) as (M3 & Mp & Q3).
  destruct (getset s5) as [[ok| | | |] s6] eqn:G2; try discriminate. destruct (getset_inv _ _ _ G2) as (M4 & Q4). destruct ok; cbn [negb] in E; [|discriminate].
  rewrite M4, M3, M2, M1 in E. rewrite M1 in Rd. rewrite M2, M1 in Mp. destruct (func (mset (sm s) base code) (ent pregs r0)) as [[fok m2] r2] eqn:F. destruct fok; cbn [negb] in E; [|discriminate].
  destruct (getset (with_sm s6 m2)) as [[ok| | | |] s7] eqn:G3; try discriminate. destruct (getset_inv _ _ _ G3) as (M5 & Q5). destruct ok; cbn [negb] in E; [|discriminate].
  destruct (getset s7) as [[ok| | | |] s8] eqn:G4; try discriminate. destruct (getset_inv _ _ _ G4) as (M6 & Q6). destruct ok; cbn [negb] in E; [|discriminate].
  unfold ret in E. injection E as -> -> <- <-. exists orig, m2. split; [exact Rd|]. split; [exact Mp|]. split; [reflexivity|]. split; [reflexivity|].
  split; [|intros x Hx; cbn [execute_back] in B; pose proof (write_out base orig s8 x) as Wo; assert (Lo : zlen orig = zlen code) by (apply mread_length in Rd; unfold zlen; lia); rewrite Lo in Wo; specialize (Wo Hx); destruct (mem_write base orig s8) as [[?| | | |] s9]; cbn [snd] in Wo; try discriminate; (injection B as _ <- || injection B as <-); rewrite Wo, M6, M5; reflexivity].
  intros O Mm. assert (O8 : so s8 = []) by (apply Q6, Q5, Q4, Q3, Q2, Q1, O). assert (S8 : sm s8 = m2) by (rewrite M6, M5; reflexivity).
  cbn [execute_back] in B. assert (Lo : zlen orig = zlen code) by (apply mread_length in Rd; unfold zlen; lia).
  destruct (write_quiet base orig s8 O8) as (s9 & W9 & S9 & O9); [rewrite S8, Lo; exact Mm|]. rewrite W9 in B. injection B as <-. rewrite S9, S8. auto.
Qed.
Lemma front_rv pregs r0 s rv r p o s' : execute_front regs ent func base code pregs r0 s = (Ret (rv, r, p, o), s') -> rv = 0 \/ rv = -1.
Proof.
  unfold execute_front, bind, ret. intros E.
  destruct (getset s) as [[[|]| | | |] s1]; cbn [negb] in E; try discriminate; [|injection E as <- _ _ _ _; auto].
  destruct (mem_read base (length code) s1) as [[?| | | |] s2]; try discriminate; [|injection E as <- _ _ _ _; auto].
  destruct (mem_write base code s2) as [[?| | | |] s3]; try discriminate; [|injection E as <- _ _ _ _; auto].
  destruct (getset s3) as [[[|]| | | |] s4]; cbn [negb] in E; try discriminate; [|injection E as <- _ _ _ _; auto].
  destruct (func (sm s4) (ent pregs r0)) as [[[|] m] r1]; cbn [negb] in E; [|injection E as <- _ _ _ _; auto].
  destruct (getset (with_sm s4 m)) as [[[|]| | | |] s5]; cbn [negb] in E; try discriminate; [|injection E as <- _ _ _ _; auto].
  destruct (getset s5) as [[[|]| | | |] s6]; cbn [negb] in E; try discriminate; injection E as <- _ _ _ _; auto.
Qed.
(** Nothing fails *)
Lemma execute_quiet pregs r0 s m2 p : so s = [] -> mapped (sm s) base (zlen code) -> func (mset (sm s) base code) (ent pregs r0) = (true, m2, p) -> mapped m2 base (zlen code) ->
  exists orig s', mread (sm s) base (length code) = Some orig /\ execute_remote regs ent func base code pregs r0 s = (Ret (0, r0, p), s') /\ so s' = [] /\ sm s' = mset m2 base orig.
Proof.
  intros O Mp F M2. destruct (read_quiet base (length code) s O) as (orig & R & Rd); [exact Mp|]. exists orig.
  destruct (write_quiet base code s O Mp) as (s1 & W & S1 & O1). assert (Lo : zlen orig = zlen code) by (apply mread_length in Rd; unfold zlen; lia).
  destruct (write_quiet base orig (with_sm s1 m2)) as (s2 & W2 & S2 & O2); [exact O1|rewrite Lo; exact M2|].
  exists s2. split; [exact Rd|]. split; [|split; [exact O2|exact S2]].
  unfold execute_remote, execute_front, bind. rewrite getset_quiet by exact O. cbn [negb]. rewrite R, W. rewrite getset_quiet by exact O1. cbn [negb]. rewrite S1, F. cbn [negb].
  rewrite getset_quiet by exact O1. cbn [negb]. rewrite getset_quiet by exact O1. cbn [negb]. unfold ret. cbn [execute_back]. rewrite W2. reflexivity.
Qed.
End Execute.

(** * The code that calls *)
Definition clen (a : carch) : Z := match a with CX86 => 3 | _ => 8 end.
Lemma code_len a : zlen (ifunc_code a) = clen a.
Proof. destruct a; reflexivity. Qed.
Definition back_off (a : carch) : Z := match a with CX86 => 2 | _ => 4 end.
Lemma decode_ifunc a m base : (forall x, base <= x < base + clen a -> m x = mset (fun _ => None) base (ifunc_code a) x) -> decode a m base = Some (ICall (addr_reg a), back_off a) /\ exists l, decode a m (base + back_off a) = Some (IBreak, l).
Proof.
  intros H.
  assert (G : forall i, 0 <= i < clen a -> m (base + i) = Some (nth (Z.to_nat i) (ifunc_code a) 0)).
  { intros i Hi. rewrite H by lia. rewrite mset_in by (rewrite code_len; unfold in_range; lia). replace (base + i - base) with i by lia. reflexivity. }
  destruct a; cbn [clen] in *.
  - pose proof (G 0 ltac:(lia)) as G0. pose proof (G 1 ltac:(lia)) as G1. pose proof (G 2 ltac:(lia)) as G2. rewrite Z.add_0_r in G0. cbn in G0, G1, G2. unfold decode, back_off. rewrite G0, G1, G2. split; [reflexivity|]. eexists. reflexivity.
  - assert (R0 : mread m base 4 = Some [0x00; 0x01; 0x3f; 0xd6]) by (apply mread_spec; split; [reflexivity|]; intros x Hx; unfold in_range in Hx; replace x with (base + (x - base)) by lia; rewrite G by lia; replace (base + (x - base) - base) with (x - base) by lia; assert (x - base = 0 \/ x - base = 1 \/ x - base = 2 \/ x - base = 3) as D4 by lia; destruct D4 as [D4|D4]; [|destruct D4 as [D4|D4]; [|destruct D4 as [D4|D4]]]; rewrite D4; reflexivity).
    assert (R1 : mread m (base + 4) 4 = Some [0xa0; 0x00; 0x20; 0xd4]) by (apply mread_spec; split; [reflexivity|]; intros x Hx; unfold in_range in Hx; replace x with (base + (x - base)) by lia; rewrite G by lia; replace (base + (x - base) - (base + 4)) with (x - base - 4) by lia; assert (x - base = 4 \/ x - base = 5 \/ x - base = 6 \/ x - base = 7) as D4 by lia; destruct D4 as [D4|D4]; [|destruct D4 as [D4|D4]; [|destruct D4 as [D4|D4]]]; rewrite D4; reflexivity).
    unfold decode, back_off. rewrite R0, R1. split; [reflexivity|]. eexists. reflexivity.
  - assert (R0 : mread m base 4 = Some [0xe7; 0x00; 0x05; 0x00]) by (apply mread_spec; split; [reflexivity|]; intros x Hx; unfold in_range in Hx; replace x with (base + (x - base)) by lia; rewrite G by lia; replace (base + (x - base) - base) with (x - base) by lia; assert (x - base = 0 \/ x - base = 1 \/ x - base = 2 \/ x - base = 3) as D4 by lia; destruct D4 as [D4|D4]; [|destruct D4 as [D4|D4]; [|destruct D4 as [D4|D4]]]; rewrite D4; reflexivity).
    assert (R1 : mread m (base + 4) 4 = Some [0x73; 0x00; 0x10; 0x00]) by (apply mread_spec; split; [reflexivity|]; intros x Hx; unfold in_range in Hx; replace x with (base + (x - base)) by lia; rewrite G by lia; replace (base + (x - base) - (base + 4)) with (x - base - 4) by lia; assert (x - base = 4 \/ x - base = 5 \/ x - base = 6 \/ x - base = 7) as D4 by lia; destruct D4 as [D4|D4]; [|destruct D4 as [D4|D4]; [|destruct D4 as [D4|D4]]]; rewrite D4; reflexivity).
    unfold decode, back_off. rewrite R0, R1. split; [reflexivity|]. eexists. reflexivity.
  - assert (R0 : mread m base 4 = Some [0x81; 0x00; 0x00; 0x4c]) by (apply mread_spec; split; [reflexivity|]; intros x Hx; unfold in_range in Hx; replace x with (base + (x - base)) by lia; rewrite G by lia; replace (base + (x - base) - base) with (x - base) by lia; assert (x - base = 0 \/ x - base = 1 \/ x - base = 2 \/ x - base = 3) as D4 by lia; destruct D4 as [D4|D4]; [|destruct D4 as [D4|D4]; [|destruct D4 as [D4|D4]]]; rewrite D4; reflexivity).
    assert (R1 : mread m (base + 4) 4 = Some [0x00; 0x00; 0x2a; 0x00]) by (apply mread_spec; split; [reflexivity|]; intros x Hx; unfold in_range in Hx; replace x with (base + (x - base)) by lia; rewrite G by lia; replace (base + (x - base) - (base + 4)) with (x - base - 4) by lia; assert (x - base = 4 \/ x - base = 5 \/ x - base = 6 \/ x - base = 7) as D4 by lia; destruct D4 as [D4|D4]; [|destruct D4 as [D4|D4]; [|destruct D4 as [D4|D4]]]; rewrite D4; reflexivity).
    unfold decode, back_off. rewrite R0, R1. split; [reflexivity|]. eexists. reflexivity.
Qed.

Lemma stops_ok evs : reaches_trap evs -> forall st, fst (wait_for_stop evs st) = Some 0.
Proof.
  induction 1 as [r|sig r N1 N2 H IH]; intros st; cbn [wait_for_stop negb].
  - reflexivity.
  - replace ((sig =? sigstop) || (sig =? sigtrap)) with false by (unfold sigstop, sigtrap in *; lia). destruct (wait_for_stop r sig) as [x y] eqn:E. specialize (IH sig). rewrite E in IH. exact IH.
Qed.

(** What the function is entered with *)
Lemma cpu_call_entry a f m base p r0 : (forall x, base <= x < base + clen a -> m x = mset (fun _ => None) base (ifunc_code a) x) ->
  cpu_call a f m (enter a base p r0) =
    let '(m1, g1) := match a with
                     | CX86 => (mset m (gr r0 (sp_reg a) - 8) (le_bytes 8 (base + back_off a)), set_gr (gr (enter a base p r0)) (sp_reg a) (gr r0 (sp_reg a) - 8))
                     | _ => (m, set_gr (gr (enter a base p r0)) (link_reg a) (base + back_off a))
                     end in
    match f (gr p (addr_reg a)) g1 m1 with
    | Some (m2, g2) =>
        match decode a m2 (base + back_off a) with
        | Some (IBreak, _) => Some (m2, {| gr := match a with CX86 => set_gr g2 (sp_reg a) (g2 (sp_reg a) + 8) | _ => g2 end; pc := base + back_off a |})
        | _ => None
        end
    | None => None
    end.
Proof.
  intros H. destruct (decode_ifunc a m base H) as (D & _). unfold cpu_call. change (pc (enter a base p r0)) with base. rewrite D.
  assert (S : gr (enter a base p r0) (sp_reg a) = gr r0 (sp_reg a)) by (destruct a; reflexivity). rewrite S.
  assert (A : gr (enter a base p r0) (addr_reg a) = gr p (addr_reg a)) by (destruct a; reflexivity). rewrite A. reflexivity.
Qed.
Lemma mset_code m base (code : list Z) x : base <= x < base + zlen code -> mset m base code x = mset (fun _ => None) base code x.
Proof. intros H. rewrite !mset_in by exact H. reflexivity. Qed.
Lemma mset_back m base n orig x : mread m base n = Some orig -> in_range x base (Z.of_nat n) -> forall m2, mset m2 base orig x = m x.
Proof.
  intros R H m2. apply mread_spec in R. destruct R as [L R]. rewrite mset_in by (unfold zlen, in_range in *; lia). symmetry. apply R. exact H.
Qed.
Definition pushed (a : carch) : Z := match a with CX86 => 8 | _ => 0 end.
Lemma ifunc_regs_addr a junk addr : gr (ifunc_regs a junk addr) (addr_reg a) = addr.
Proof. unfold ifunc_regs, set_gr. cbn [gr]. rewrite Z.eqb_refl. reflexivity. Qed.
Lemma res_not_sp a : res_reg a <> sp_reg a.
Proof. destruct a; discriminate. Qed.

Lemma copied_sets a x : existsb (Z.eqb x) (copied a) = true <-> In x (tool_sets a).
Proof. destruct a; cbn; rewrite ?orb_true_iff, ?Z.eqb_eq; intuition congruence. Qed.
Lemma enter_regs a base junk addr r0 : entered a junk addr r0 (gr (enter a base (ifunc_regs a junk addr) r0)) /\ gr (enter a base (ifunc_regs a junk addr) r0) (sp_reg a) = gr r0 (sp_reg a).
Proof.
  split; [|destruct a; reflexivity]. unfold entered. split; [destruct a; reflexivity|]. split.
  - intros x Hx N. apply copied_sets in Hx. unfold enter. cbn [gr]. rewrite Hx. unfold ifunc_regs, set_gr. cbn [gr]. apply Z.eqb_neq in N. destruct a; cbn [addr_reg]; rewrite N; reflexivity.
  - intros x Hx _. unfold enter. cbn [gr]. destruct (existsb (Z.eqb x) (copied a)) eqn:E; [apply copied_sets in E; contradiction|reflexivity].
Qed.
Lemma entered_set a junk addr r0 g v : entered a junk addr r0 g -> entered a junk addr r0 (set_gr g (match a with CX86 => 4 | CAarch64 => 30 | _ => 1 end) v).
Proof.
  intros (A & B & C). unfold entered, set_gr. split; [|split].
  - destruct a; exact A.
  - intros x Hx N. destruct (Z.eqb_spec x (match a with CX86 => 4 | CAarch64 => 30 | _ => 1 end)) as [->|_]; [|apply B; assumption]. exfalso. destruct a; cbn in Hx; lia.
  - intros x Hx N. destruct (Z.eqb_spec x (match a with CX86 => 4 | CAarch64 => 30 | _ => 1 end)); [contradiction|apply C; assumption].
Qed.
(** A call, seen from the memory and registers the function gets *)
Lemma call_shape a f m base junk addr r0 : (forall x, base <= x < base + clen a -> m x = mset (fun _ => None) base (ifunc_code a) x) ->
  exists m1 g1, entered a junk addr r0 g1 /\ g1 (sp_reg a) = gr r0 (sp_reg a) - pushed a
    /\ (forall x, ~ in_range x (gr r0 (sp_reg a) - pushed a) (pushed a) -> m1 x = m x)
    /\ (forall b n, mapped m b n -> mapped m1 b n)
    /\ match f addr g1 m1 with
       | None => cpu_call a f m (enter a base (ifunc_regs a junk addr) r0) = None
       | Some (m2, g2) =>
           (forall m3 c, cpu_call a f m (enter a base (ifunc_regs a junk addr) r0) = Some (m3, c) -> m3 = m2 /\ gr c (res_reg a) = g2 (res_reg a))
           /\ ((forall x, base <= x < base + clen a -> m2 x = m x) -> exists c, cpu_call a f m (enter a base (ifunc_regs a junk addr) r0) = Some (m2, c))
       end.
Proof.
  intros H. rewrite cpu_call_entry by exact H. rewrite ifunc_regs_addr. destruct (enter_regs a base junk addr r0) as (E & S). set (g0 := gr (enter a base (ifunc_regs a junk addr) r0)) in *.
  set (mg := match a with CX86 => _ | _ => _ end).
  assert (X : entered a junk addr r0 (snd mg) /\ snd mg (sp_reg a) = gr r0 (sp_reg a) - pushed a /\ (forall x, ~ in_range x (gr r0 (sp_reg a) - pushed a) (pushed a) -> fst mg x = m x) /\ (forall b n, mapped m b n -> mapped (fst mg) b n)).
  { split; [|split; [|split]].
    - pose proof (fun v => entered_set a junk addr r0 g0 v E) as E'. destruct a; apply E'.
    - destruct a; unfold mg; cbn [snd sp_reg link_reg pushed]; unfold set_gr; cbn [Z.eqb Pos.eqb]; cbn [sp_reg] in S; rewrite ?S; lia.
    - intros x Hx. destruct a; try reflexivity. unfold mg. cbn [fst]. apply mset_out. exact Hx.
    - intros b n Hm. destruct a; try exact Hm. apply mset_mapped. exact Hm. }
  destruct mg as [m1 g1]. cbn [fst snd] in X. destruct X as (X1 & X2 & X3 & X4). exists m1, g1. repeat (split; [assumption|]).
  destruct (f addr g1 m1) as [[m2 g2]|]; [|reflexivity]. split.
  - intros m3 c C. destruct (decode a m2 (base + back_off a)) as [[[]]|]; try discriminate. injection C as <- <-. split; [reflexivity|]. cbn [gr]. destruct a; reflexivity.
  - intros Hm. destruct (decode_ifunc a m2 base) as (_ & l & D). { intros x Hx. rewrite Hm by exact Hx. apply H. exact Hx. } rewrite D. eauto.
Qed.

(** Success: the resolver's answer *)
Lemma resolve_value a evs f junk libc addr r0 s r v s' : resolve_ifunc a evs true f junk libc addr r0 s = (Ret (0, r, v), s') ->
  exists m1 g1 m2 g2, f addr g1 m1 = Some (m2, g2) /\ v = g2 (res_reg a) /\ r = r0 /\ entered a junk addr r0 g1 /\ g1 (sp_reg a) = gr r0 (sp_reg a) - pushed a
    /\ (forall x, ~ in_range x libc (clen a) -> ~ in_range x (gr r0 (sp_reg a) - pushed a) (pushed a) -> m1 x = sm s x).
Proof.
  unfold resolve_ifunc, bind. destruct (execute_remote _ _ _ _ _ _ _ s) as [[[[rv r1] p]| | | |] s1] eqn:E; try discriminate. unfold ret. intros H. injection H as -> -> <- ->. cbn [Z.eqb].
  apply execute_success in E. destruct E as (orig & m2 & Rd & Mp & F & -> & _ & _). unfold call_func in F.
  set (m0 := mset (sm s) libc (ifunc_code a)) in *.
  destruct (call_shape a f m0 libc junk addr r0) as (m1 & g1 & E1 & E2 & E3 & _ & E4). { intros x Hx. unfold m0. apply mset_code. rewrite code_len. exact Hx. }
  destruct (f addr g1 m1) as [[m2' g2]|] eqn:Ef; [|rewrite E4 in F; discriminate]. destruct E4 as (E4 & _).
  destruct (cpu_call a f m0 (enter a libc (ifunc_regs a junk addr) r0)) as [[m3 c]|]; [|discriminate]. injection F as _ -> ->. destruct (E4 m2 p eq_refl) as (<- & Ev).
  exists m1, g1, m2, g2. repeat (split; [assumption || reflexivity|]). intros x H1 H2. rewrite E3 by exact H2. unfold m0. apply mset_out. rewrite code_len. exact H1.
Qed.

(** Nothing fails: it succeeds, and what is left *)
Lemma resolve_quiet a evs k f junk libc addr r0 s : so s = [] -> 0 <= k -> reaches_trap evs -> tame a k f -> (forall g m, f addr g m <> None) -> mapped (sm s) libc (clen a) -> apart libc (clen a) (gr r0 (sp_reg a) - pushed a - k) (k + pushed a) ->
  exists v s', resolve_ifunc a evs true f junk libc addr r0 s = (Ret (0, r0, v), s') /\ so s' = [] /\ forall x, ~ in_range x (gr r0 (sp_reg a) - pushed a - k) (k + pushed a) -> sm s' x = sm s x.
Proof.
  intros O K T Tm Ret Mp Ap. set (m0 := mset (sm s) libc (ifunc_code a)).
  assert (M0 : forall x, libc <= x < libc + clen a -> m0 x = mset (fun _ => None) libc (ifunc_code a) x) by (intros x Hx; unfold m0; apply mset_code; rewrite code_len; exact Hx).
  destruct (call_shape a f m0 libc junk addr r0 M0) as (m1 & g1 & E1 & E2 & E3 & Emap & E4).
  destruct (f addr g1 m1) as [[m2 g2]|] eqn:Ef; [|exfalso; exact (Ret g1 m1 Ef)]. destruct (Tm _ _ _ _ _ Ef) as (Tm1 & Tm2). rewrite E2 in Tm1, Tm2. destruct E4 as (Ev & Ec).
  assert (P : 0 <= pushed a) by (destruct a; cbn; lia). assert (Cl : 0 < clen a) by (destruct a; cbn; lia).
  assert (St : forall x, ~ in_range x (gr r0 (sp_reg a) - pushed a - k) (k + pushed a) -> m2 x = m0 x) by (intros x Hx; unfold in_range in Hx; rewrite Tm1 by lia; apply E3; unfold in_range; lia).
  assert (Ca : forall x, libc <= x < libc + clen a -> m2 x = m0 x) by (intros x Hx; apply St; unfold apart, in_range in *; lia).
  destruct (Ec Ca) as (c & C).
  assert (F : call_func a evs true f m0 (enter a libc (ifunc_regs a junk addr) r0) = (true, m2, c)) by (unfold call_func; rewrite C, stops_ok by exact T; reflexivity).
  destruct (execute_quiet (enter a libc) (call_func a evs true f) libc (ifunc_code a) (ifunc_regs a junk addr) r0 s m2 c O) as (orig & s' & Rd & X & O' & S').
  - rewrite code_len. exact Mp.
  - exact F.
  - rewrite code_len. intros x Hx. rewrite Ca by exact Hx. unfold m0. apply mset_mapped with (n := clen a) (b := libc); assumption.
  - exists (gr c (res_reg a)), s'. split; [unfold resolve_ifunc, bind; rewrite X; reflexivity|]. split; [exact O'|]. intros x Hx. rewrite S'.
    pose proof (mread_length _ _ _ _ Rd) as L. pose proof (code_len a) as CL. unfold zlen in CL.
    destruct (Z_le_dec libc x) as [A|A]; [destruct (Z_lt_dec x (libc + clen a)) as [B|B]|].
    + eapply mset_back; [exact Rd|unfold in_range; lia].
    + rewrite mset_out by (unfold in_range, zlen; lia). rewrite St by exact Hx. apply mset_out. unfold in_range. rewrite code_len. lia.
    + rewrite mset_out by (unfold in_range, zlen; lia). rewrite St by exact Hx. apply mset_out. unfold in_range. rewrite code_len. lia.
Qed.

(** * The thread's base *)
Lemma syscall_func_ok evs kernel m r : reaches_trap evs -> syscall_func evs true kernel m r = (true, fst (kernel m), snd (kernel m)).
Proof. intros T. unfold syscall_func. destruct (kernel m) as [m2 r2]. rewrite stops_ok by exact T. reflexivity. Qed.
Lemma attempt_some {A} (x : M A) s v s' : attempt x s = (Ret (Some v), s') -> x s = (Ret v, s').
Proof. unfold attempt. destruct (x s) as [[?| | | |] ?]; intros H; try discriminate; injection H as -> ->; reflexivity. Qed.
Lemma attempt_inv {A} (x : M A) s o s' : attempt x s = (Ret o, s') -> (exists v, o = Some v /\ x s = (Ret v, s')) \/ (o = None /\ x s = (Err, s')).
Proof. unfold attempt. destruct (x s) as [[?| | | |] ?]; intros H; try discriminate; injection H as <- <-; eauto. Qed.
Lemma attempt_ret {A} (x : M A) s v s' : x s = (Ret v, s') -> attempt x s = (Ret (Some v), s').
Proof. unfold attempt. intros ->. reflexivity. Qed.
Lemma read_le m a n x : mread m a n = Some (le_bytes n x) -> forall bs, mread m a n = Some bs -> le_val bs = x mod 256 ^ Z.of_nat n.
Proof. intros H bs H'. rewrite H in H'. injection H' as <-. apply le_val_bytes. Qed.

Lemma prctl_value evs libc rsp rax0 fs s v s' : prctl_remote evs true libc rsp rax0 fs s = (Ret (0, Some v), s') -> apart libc 3 rsp 8 -> 0 <= fs < 2 ^ 64 -> v = fs.
Proof.
  intros H Ap Fs. unfold prctl_remote, bind in H. destruct (getset s) as [[ok| | | |] s1] eqn:G; try discriminate. destruct ok; cbn [negb] in H; [|discriminate].
  destruct (attempt (mem_read rsp 8) s1) as [[o| | | |] s2] eqn:R; try discriminate. destruct o as [old|]; [|discriminate].
  destruct (syscall_remote _ _ _ _ _ _ s2) as [[[[rv r1] p]| | | |] s3] eqn:E; try discriminate.
  destruct (Z.ltb_spec rv 0) as [L|L]. { unfold ret in H. destruct (attempt (mem_write rsp old) s3) as [[?| | | |] s4]; try discriminate. injection H as H _ _. cbn in H. lia. }
  assert (rv = 0) as ->. { revert E. unfold syscall_remote, execute_remote, bind. destruct (execute_front _ _ _ _ _ _ _ s2) as [[[[[a b] c] d]| | | |] s5] eqn:F; try discriminate. destruct (execute_back libc d s5) as [[?| | | |] s6]; try discriminate. unfold ret. intros X. injection X as -> _ _ _. apply front_rv in F. lia. }
  unfold syscall_remote in E. apply execute_success in E. destruct E as (orig & m2 & Rd & Mp & F & -> & _ & Out). unfold syscall_func, prctl_kernel in F.
  set (m0 := mset (sm s2) libc syscall_code) in *. destruct (Nat.eqb_spec (maplen m0 rsp 8) 8) as [Ml|Ml].
  2: { injection F as _ _ <-. cbn in H. destruct (attempt (mem_write rsp old) s3) as [[?| | | |] s4]; discriminate. }
  injection F as _ <- <-. cbn in H.
  destruct (attempt (mem_read rsp 8) s3) as [[o| | | |] s4] eqn:R2; try discriminate. destruct o as [bs|]; [|unfold ret in H; destruct (attempt (mem_write rsp old) s4) as [[?| | | |] ?]; discriminate].
  unfold ret in H. destruct (attempt (mem_write rsp old) s4) as [[?| | | |] s5]; try discriminate. injection H as <- _.
  apply attempt_some in R2. apply read_inv in R2. destruct R2 as (_ & R2 & _).
  rewrite (mread_ext _ (mset m0 rsp (le_bytes 8 fs))) in R2 by (intros x Hx; apply Out; unfold apart, in_range in *; cbn; lia).
  rewrite (read_le _ _ _ fs (mread_mset_same m0 rsp (le_bytes 8 fs)) bs R2). apply Z.mod_small. exact Fs.
Qed.
Lemma prctl_quiet evs libc rsp rax0 fs s : so s = [] -> reaches_trap evs -> apart libc 3 rsp 8 -> mapped (sm s) libc 3 -> mapped (sm s) rsp 8 -> 0 <= fs < 2 ^ 64 ->
  exists s', prctl_remote evs true libc rsp rax0 fs s = (Ret (0, Some fs), s') /\ so s' = [] /\ forall x, sm s' x = sm s x.
Proof.
  intros O T Ap Ml Mr Fs. destruct (read_quiet rsp 8 s O Mr) as (old & R & Rd). set (m0 := mset (sm s) libc syscall_code).
  assert (K : prctl_kernel rsp fs m0 = (mset m0 rsp (le_bytes 8 fs), 0)). { unfold prctl_kernel. assert (maplen m0 rsp 8 = 8%nat) as -> by (apply (maplen_full m0 rsp 8), mset_mapped; exact Mr). reflexivity. }
  destruct (execute_quiet (fun p _ => p) (syscall_func evs true (prctl_kernel rsp fs)) libc syscall_code 158 rax0 s (mset m0 rsp (le_bytes 8 fs)) 0 O) as (orig & s2 & Rd2 & X & O2 & S2).
  - exact Ml.
  - rewrite syscall_func_ok by exact T. fold m0. rewrite K. reflexivity.
  - apply mset_mapped, mset_mapped. exact Ml.
  - assert (W : forall x, in_range x rsp 8 -> sm s2 x = mset m0 rsp (le_bytes 8 fs) x).
    { intros x Hx. rewrite S2. apply mset_out. apply mread_length in Rd2. unfold zlen. rewrite Rd2. unfold apart, in_range in *. cbn. lia. }
    destruct (read_quiet rsp 8 s2 O2) as (bs & R3 & Rd3). { intros x Hx. rewrite W by exact Hx. rewrite mset_in; [discriminate|]. rewrite le_bytes_zlen. exact Hx. }
    rewrite (mread_ext _ (mset m0 rsp (le_bytes 8 fs))) in Rd3 by exact W.
    assert (V : le_val bs = fs) by (rewrite (read_le _ _ _ fs (mread_mset_same m0 rsp (le_bytes 8 fs)) bs Rd3); apply Z.mod_small; exact Fs).
    assert (Lo : length old = 8%nat) by (apply mread_length in Rd; exact Rd).
    destruct (write_quiet rsp old s2 O2) as (s3 & W3 & S3 & O3). { unfold zlen. rewrite Lo. intros x Hx. rewrite W by exact Hx. rewrite mset_in; [discriminate|]. rewrite le_bytes_zlen. exact Hx. }
    exists s3. split; [|split; [exact O3|]].
    + unfold prctl_remote, bind. rewrite getset_quiet by exact O. cbn [negb]. rewrite (attempt_ret _ _ _ _ R). unfold syscall_remote. rewrite X. change (0 <? 0) with false. change (kernel_error_bound <=? 0) with false. cbv beta iota.
      rewrite (attempt_ret _ _ _ _ R3). unfold ret. rewrite (attempt_ret _ _ _ _ W3). cbn [fst snd]. rewrite V. reflexivity.
    + intros x. rewrite S3. destruct (Z_le_dec rsp x) as [A|A]; [destruct (Z_lt_dec x (rsp + 8)) as [B|B]|].
      * eapply mset_back; [exact Rd|unfold in_range; lia].
      * rewrite mset_out by (unfold in_range, zlen; lia). rewrite S2. destruct (Z_le_dec libc x) as [C|C]; [destruct (Z_lt_dec x (libc + 3)) as [D|D]|].
        -- eapply mset_back; [exact Rd2|unfold in_range; cbn; lia].
        -- rewrite mset_out by (apply mread_length in Rd2; unfold in_range, zlen; rewrite Rd2; cbn; lia). rewrite mset_out by (unfold in_range; rewrite le_bytes_zlen; lia). apply mset_out. unfold in_range. cbn. lia.
        -- rewrite mset_out by (apply mread_length in Rd2; unfold in_range, zlen; rewrite Rd2; cbn; lia). rewrite mset_out by (unfold in_range; rewrite le_bytes_zlen; lia). apply mset_out. unfold in_range. cbn. lia.
      * rewrite mset_out by (unfold in_range, zlen; lia). rewrite S2. destruct (Z_le_dec libc x) as [C|C]; [destruct (Z_lt_dec x (libc + 3)) as [D|D]|].
        -- eapply mset_back; [exact Rd2|unfold in_range; cbn; lia].
        -- rewrite mset_out by (apply mread_length in Rd2; unfold in_range, zlen; rewrite Rd2; cbn; lia). rewrite mset_out by (unfold in_range; rewrite le_bytes_zlen; lia). apply mset_out. unfold in_range. cbn. lia.
        -- rewrite mset_out by (apply mread_length in Rd2; unfold in_range, zlen; rewrite Rd2; cbn; lia). rewrite mset_out by (unfold in_range; rewrite le_bytes_zlen; lia). apply mset_out. unfold in_range. cbn. lia.
Qed.

(** * __start_context *)
Definition rbp_of (r0 : cpu) : Z := gr r0 4 - gr r0 4 mod 16 - 1024.
Lemma entry_words m rsp ra : 0 <= rsp ->
  let rbp := rsp - rsp mod 16 - 1024 in
  word_at (makecontext_entry m rsp ra) (rbp + 16) (rbp - 128) /\ word_at (makecontext_entry m rsp ra) (rbp + 32) 128.
Proof.
  intros H rbp. assert (B : 0 <= rsp mod 16 < 16) by (apply Z.mod_pos_bound; lia). unfold word_at, makecontext_entry. fold rbp.
  set (m1 := mset m (rbp + 16) (le_bytes 8 (rbp - 128))). set (m2 := mset m1 (rbp + 32) (le_bytes 8 128)). split.
  - rewrite (mread_ext _ m1). { exact (mread_mset_same m (rbp + 16) (le_bytes 8 (rbp - 128))). }
    intros x Hx. unfold in_range in Hx. rewrite mset_out by (unfold in_range; rewrite le_bytes_zlen; lia). apply mset_out. unfold in_range. rewrite le_bytes_zlen. lia.
  - rewrite (mread_ext _ m2). { exact (mread_mset_same m1 (rbp + 32) (le_bytes 8 128)). }
    intros x Hx. unfold in_range in Hx. apply mset_out. unfold in_range. rewrite le_bytes_zlen. lia.
Qed.
Lemma entry_out m rsp ra x : 0 <= rsp -> ~ (rsp - rsp mod 16 - 1024 <= x < rsp) -> makecontext_entry m rsp ra x = m x.
Proof.
  intros H N. assert (B : 0 <= rsp mod 16 < 16) by (apply Z.mod_pos_bound; lia). unfold makecontext_entry. rewrite !mset_out by (unfold in_range; rewrite le_bytes_zlen; lia). reflexivity.
Qed.
Lemma align16 x : (x - x mod 16 - 1024) mod 16 = 0.
Proof. replace (x - x mod 16 - 1024) with ((x / 16 - 64) * 16) by (pose proof (Z.div_mod x 16); lia). apply Z.mod_mul. lia. Qed.
Lemma context_call_ok f base m p r0 mk start m2 c : glibc_makecontext mk start f -> gr p 0 = mk -> 1168 <= gr r0 4 < 2 ^ 64 -> context_call f base m (enter CX86 base p r0) = Some (m2, c) ->
  word_at m2 (rbp_of r0 - 24) start /\ gr c 5 = rbp_of r0.
Proof.
  intros G P R H. unfold context_call in H. assert (A : gr (enter CX86 base p r0) 0 = mk) by exact P. rewrite A in H. change (gr (enter CX86 base p r0) 4) with (gr r0 4) in H. fold (rbp_of r0) in H.
  set (g := set_gr _ 4 (gr r0 4 - 8)) in H. destruct (f mk g (makecontext_entry m (gr r0 4) (base + 45))) as [[m3 g2]|] eqn:E; [|discriminate]. injection H as <- <-.
  assert (B : 0 <= gr r0 4 mod 16 < 16) by (apply Z.mod_pos_bound; lia).
  destruct (entry_words m (gr r0 4) (base + 45)) as (W1 & W2); [lia|]. fold (rbp_of r0) in W1, W2.
  destruct (G g _ m3 g2 (rbp_of r0 - 128) 128 E) as (Ws & G5).
  - exact W1.
  - exact W2.
  - unfold rbp_of. lia.
  - lia.
  - reflexivity.
  - replace (rbp_of r0 - 128 + 128) with (rbp_of r0) by lia. apply align16.
  - split; [replace (rbp_of r0 - 24) with (rbp_of r0 - 128 + 128 - 24) by lia; exact Ws|]. cbn [gr]. unfold set_gr at 1. cbn [Z.eqb Pos.eqb]. exact G5.
Qed.
Lemma locate_value evs f junk libc mk r0 s v s' start : locate_start_context evs true f junk libc (Some mk) r0 s = (Ret v, s') -> glibc_makecontext mk start f -> 0 <= start < 2 ^ 64 -> 1168 <= gr r0 4 < 2 ^ 64 ->
  apart libc 46 (rbp_of r0 - 24) 8 -> v = start.
Proof.
  intros H G Sr R Ap. unfold locate_start_context, bind in H. destruct (execute_remote _ _ _ _ _ _ _ s) as [[[[rv r1] p]| | | |] s1] eqn:E; try discriminate.
  destruct (Z.ltb_spec rv 0) as [L|L]; [discriminate|].
  assert (rv = 0) as ->. { revert E. unfold execute_remote, bind. destruct (execute_front _ _ _ _ _ _ _ s) as [[[[[a b] c] d]| | | |] s5] eqn:F; try discriminate. destruct (execute_back libc d s5) as [[?| | | |] s6]; try discriminate. unfold ret. intros X. injection X as -> _ _ _. apply front_rv in F. lia. }
  apply execute_success in E. destruct E as (orig & m2 & Rd & Mp & F & -> & _ & Out). unfold context_func in F.
  destruct (context_call f libc _ _) as [[m3 c]|] eqn:C; [|discriminate]. injection F as _ -> ->.
  destruct (context_call_ok f libc _ {| gr := set_gr junk 0 mk; pc := 0 |} r0 mk start m2 p G eq_refl R C) as (W & G5). rewrite G5 in H.
  assert (B : 0 <= gr r0 4 mod 16 < 16) by (apply Z.mod_pos_bound; lia).
  unfold read_word, bind in H. rewrite u64_small in H by (unfold rbp_of; lia). destruct (mem_read (rbp_of r0 - 24) 8 s1) as [[bs| | | |] s2] eqn:R2; try discriminate. unfold ret in H. injection H as <- <-.
  apply read_inv in R2. destruct R2 as (_ & R2 & _). rewrite (mread_ext _ m2) in R2 by (intros x Hx; apply Out; unfold apart, in_range in *; cbn; lia).
  rewrite (read_le _ _ _ start W bs R2). apply Z.mod_small. exact Sr.
Qed.
Lemma locate_quiet evs k f junk libc mk r0 s start : so s = [] -> 0 <= k -> reaches_trap evs -> tame CX86 k f -> (forall g m, f mk g m <> None) -> glibc_makecontext mk start f -> 0 <= start < 2 ^ 64 -> 1168 <= gr r0 4 < 2 ^ 64 ->
  mapped (sm s) libc 46 -> apart libc 46 (Z.min (gr r0 4 - 8 - k) (rbp_of r0 - 24)) (gr r0 4 - Z.min (gr r0 4 - 8 - k) (rbp_of r0 - 24)) ->
  exists s', locate_start_context evs true f junk libc (Some mk) r0 s = (Ret start, s') /\ forall x, ~ (Z.min (gr r0 4 - 8 - k) (rbp_of r0) <= x < gr r0 4) -> sm s' x = sm s x.
Proof.
  intros O K T Tm Rt G Sr R Mp Ap. set (m0 := mset (sm s) libc makecontext_code). set (pr := {| gr := set_gr junk 0 mk; pc := 0 |}).
  assert (B : 0 <= gr r0 4 mod 16 < 16) by (apply Z.mod_pos_bound; lia).
  assert (X : exists m2 c, context_call f libc m0 (enter CX86 libc pr r0) = Some (m2, c) /\ forall x, ~ (Z.min (gr r0 4 - 8 - k) (rbp_of r0) <= x < gr r0 4) -> m2 x = m0 x).
  { unfold context_call. change (gr (enter CX86 libc pr r0) 0) with mk. change (gr (enter CX86 libc pr r0) 4) with (gr r0 4). set (g := set_gr _ 4 (gr r0 4 - 8)).
    destruct (f mk g (makecontext_entry m0 (gr r0 4) (libc + 45))) as [[m2 g2]|] eqn:E; [|exfalso; exact (Rt _ _ E)]. do 2 eexists. split; [reflexivity|].
    destruct (Tm _ _ _ _ _ E) as (T1 & _). assert (Sg : g (sp_reg CX86) = gr r0 4 - 8) by reflexivity. rewrite Sg in T1. intros x Hx. rewrite T1 by lia. apply entry_out; [lia|]. unfold rbp_of in Hx. lia. }
  destruct X as (m2 & c & C & M2).
  assert (Ca : forall x, in_range x libc 46 -> m2 x = m0 x) by (intros x Hx; apply M2; unfold apart, in_range in *; lia).
  destruct (execute_quiet (enter CX86 libc) (context_func evs true f libc) libc makecontext_code pr r0 s m2 c O) as (orig & s2 & Rd & X & O2 & S2).
  - exact Mp.
  - fold m0. unfold context_func. rewrite C, stops_ok by exact T. reflexivity.
  - intros x Hx. rewrite Ca by exact Hx. unfold m0. apply mset_mapped with (n := 46) (b := libc); [exact Mp|exact Hx].
  - destruct (context_call_ok f libc m0 pr r0 mk start m2 c G eq_refl R C) as (W & G5).
    assert (Lo : length orig = 46%nat) by (apply mread_length in Rd; exact Rd).
    assert (W2 : mread (sm s2) (rbp_of r0 - 24) 8 = Some (le_bytes 8 start)). { rewrite <- W. apply mread_ext. intros x Hx. rewrite S2. apply mset_out. unfold zlen. rewrite Lo. unfold apart, in_range in *. unfold rbp_of in *. lia. }
    exists s2. split.
    + unfold locate_start_context, bind. fold pr. rewrite X. cbn [Z.ltb Z.compare]. rewrite G5. unfold read_word, bind. rewrite u64_small by (unfold rbp_of; lia). unfold mem_read, pop. rewrite O2, W2. unfold ret. rewrite le_val_bytes. rewrite Z.mod_small by exact Sr. reflexivity.
    + intros x Hx. rewrite S2. destruct (Z_le_dec libc x) as [A|A]; [destruct (Z_lt_dec x (libc + 46)) as [D|D]|].
      * eapply mset_back; [exact Rd|unfold in_range; cbn; lia].
      * rewrite mset_out by (unfold in_range, zlen; lia). rewrite M2 by exact Hx. apply mset_out. unfold in_range. cbn. lia.
      * rewrite mset_out by (unfold in_range, zlen; lia). rewrite M2 by exact Hx. apply mset_out. unfold in_range. cbn. lia.
Qed.
Lemma arm_junk kernel base m c m2 c2 : context_call_arm kernel base m c = Some (m2, c2) -> mread m2 (gr c2 29 - 24) 8 = mread m (gr c 31 - gr c 31 mod 16 - 1048) 8.
Proof.
  unfold context_call_arm. destruct (mread m _ 8) as [bs|] eqn:E; [|discriminate]. intros H. injection H as <- <-. cbn [gr]. unfold set_gr. cbn [Z.eqb Pos.eqb].
  replace (gr c 31 - gr c 31 mod 16 - 1048) with (gr c 31 - gr c 31 mod 16 - 1024 - 24) by lia. apply mread_ext. intros x Hx. apply mset_out. apply mread_length in E. unfold in_range, zlen in *. lia.
Qed.

(** * Regular expressions *)
Definition item_in (i : item) (w : text) : Prop := if snd i then Forall (fun c => atom_ok (fst i) c = true) w else exists c, w = [c] /\ atom_ok (fst i) c = true.
Fixpoint items_in (l : list item) (w : text) : Prop :=
  match l with [] => w = [] | i :: l' => exists u v, w = u ++ v /\ item_in i u /\ items_in l' v end.
Lemma here_spec l e s : match_here l e s = true <-> exists w post, s = w ++ post /\ items_in l w /\ (e = true -> post = []).
Proof.
  revert s. induction l as [|[x st] l IH]; intros s.
  - cbn. split.
    + intros H. exists [], s. repeat split; auto. intros ->. destruct s; [reflexivity|discriminate].
    + intros (w & post & -> & -> & H). cbn. destruct e; [rewrite H by reflexivity|]; reflexivity.
  - destruct st.
    + cbn [match_here]. assert (M : forall s, (fix many (s : text) : bool := match_here l e s || match s with c :: r => atom_ok x c && many r | [] => false end) s = true <-> exists u s', s = u ++ s' /\ Forall (fun c => atom_ok x c = true) u /\ match_here l e s' = true).
      { clear s. induction s as [|c s IHs].
        - split.
          + intros H. apply orb_prop in H. destruct H as [H|H]; [|discriminate]. exists [], []. auto.
          + intros (u & s' & E & F & H). symmetry in E. apply app_eq_nil in E. destruct E as [-> ->]. rewrite H. reflexivity.
        - split.
          + intros H. apply orb_prop in H. destruct H as [H|H]; [exists [], (c :: s); auto|]. apply andb_prop in H. destruct H as [H1 H2]. apply IHs in H2. destruct H2 as (u & s' & -> & F & H). exists (c :: u), s'. repeat split; auto.
          + intros (u & s' & E & F & H). destruct u as [|d u]; cbn in E; [subst s'; rewrite H; reflexivity|]. injection E as <- ->. inversion_clear F as [|? ? F1 F2]. rewrite F1. cbn [andb]. apply orb_true_intro. right. apply IHs. eauto. }
      rewrite M. split.
      * intros (u & s' & -> & F & H). apply IH in H. destruct H as (w & post & -> & Hw & He). exists (u ++ w), post. split; [apply app_assoc|]. split; [|exact He]. exists u, w. auto.
      * intros (w & post & -> & (u & v & -> & F & Hv) & He). exists u, (v ++ post). split; [rewrite app_assoc; reflexivity|]. split; [exact F|]. apply IH. eauto.
    + cbn [match_here]. split.
      * destruct s as [|c s]; [discriminate|]. intros H. apply andb_prop in H. destruct H as [H1 H2]. apply IH in H2. destruct H2 as (w & post & -> & Hw & He). exists (c :: w), post. split; [reflexivity|]. split; [|exact He]. exists [c], w. repeat split; auto. exists c. auto.
      * intros (w & post & -> & (u & v & -> & (c & -> & Ha) & Hv) & He). cbn [fst] in Ha. cbn [app]. rewrite Ha. cbn [andb]. apply IH. eauto.
Qed.
Lemma from_spec l e s : match_from l e s = true <-> exists a t, s = a ++ t /\ match_here l e t = true.
Proof.
  induction s as [|c s IH]; cbn [match_from].
  - rewrite orb_false_r. split; [intros H; exists [], []; auto|]. intros (a & t & E & H). symmetry in E. apply app_eq_nil in E. destruct E as [-> ->]. exact H.
  - rewrite orb_true_iff, IH. split.
    + intros [H|(a & t & -> & H)]; [exists [], (c :: s); auto|exists (c :: a), t; auto].
    + intros (a & t & E & H). destruct a as [|d a]; cbn in E; [subst t; auto|]. injection E as <- ->. right. eauto.
Qed.
(** Literal characters *)
Definition lits (s : text) : list item := map (fun c => (Char c, false)) s.
Lemma lits_in s w : items_in (lits s) w <-> w = s.
Proof.
  revert w. induction s as [|c s IH]; intros w; cbn; [tauto|]. split.
  - intros (u & v & -> & (d & -> & H) & Hv). cbn in H. apply IH in Hv. subst v. cbn. f_equal. symmetry. apply Z.eqb_eq. exact H.
  - intros ->. exists [c], s. repeat split; [exists c; split; [reflexivity|apply Z.eqb_refl]|]. apply IH. reflexivity.
Qed.
Lemma items_app l1 l2 w : items_in (l1 ++ l2) w <-> exists u v, w = u ++ v /\ items_in l1 u /\ items_in l2 v.
Proof.
  revert w. induction l1 as [|i l1 IH]; intros w; cbn.
  - split; [intros H; exists [], w; auto|]. intros (u & v & -> & -> & H). exact H.
  - split.
    + intros (u & v & -> & Hi & H). apply IH in H. destruct H as (u2 & v2 & -> & H1 & H2). exists (u ++ u2), v2. split; [apply app_assoc|]. split; [|exact H2]. eauto.
    + intros (u & v & -> & (u2 & v2 & -> & Hi & H1) & H2). exists u2, (v2 ++ v). split; [rewrite app_assoc; reflexivity|]. split; [exact Hi|]. apply IH. eauto.
Qed.
Lemma any_star w : items_in [(Any, true)] w.
Proof. exists w, []. rewrite app_nil_r. repeat split. apply Forall_forall. reflexivity. Qed.
Lemma find_answers {A} (f : A -> bool) (P : A -> Prop) l : (forall x, f x = true <-> P x) -> answers (find f l) P l.
Proof.
  intros H. induction l as [|x l IH]; cbn; [constructor|]. destruct (f x) eqn:E.
  - exists [], l. repeat split; [apply H; exact E|constructor].
  - assert (N : ~ P x) by (intros X; apply H in X; congruence). destruct (find f l) as [y|]; cbn in *.
    + destruct IH as (a & b & -> & Py & F). exists (x :: a), b. repeat split; auto.
    + constructor; assumption.
Qed.
Lemma regex_answers {A} (name : A -> text) pat r (P : text -> Prop) objs : regcomp pat = Some r -> (forall s, regexec r s = true <-> P s) -> answers (obj_by_regex name pat objs) (fun o => P (name o)) objs.
Proof. intros E H. unfold obj_by_regex. rewrite E. apply find_answers. intros x. apply H. Qed.

Lemma heap_match r : regcomp heap_pat = Some r -> forall s, regexec r s = true <-> s = str "[heap]".
Proof.
  intros E. vm_compute in E. injection E as <-. intros s. unfold regexec. cbn [re_start re_items re_end]. rewrite here_spec. change [(Char 91, false); (Char 104, false); (Char 101, false); (Char 97, false); (Char 112, false); (Char 93, false)] with (lits (str "[heap]")).
  split.
  - intros (w & post & -> & Hw & He). rewrite He by reflexivity. rewrite app_nil_r. apply lits_in. exact Hw.
  - intros ->. exists (str "[heap]"), []. rewrite app_nil_r. repeat split. apply lits_in. reflexivity.
Qed.
Lemma start_match l (s : text) : match_here l false s = true <-> exists w post, s = w ++ post /\ items_in l w.
Proof. rewrite here_spec. split; [intros (w & p & H1 & H2 & _); eauto|]. intros (w & p & H1 & H2). exists w, p. repeat split; auto. discriminate. Qed.
Lemma libc_match a r : regcomp (libc_pat a) = Some r -> forall s, regexec r s = true <->
  match a with CX86 | CAarch64 => exists mid rest, s = str "libc-" ++ mid ++ str ".so" ++ rest | _ => begins (str "libc.so") s end.
Proof.
  intros E s. assert (X : match a with CX86 | CAarch64 => Some {| re_start := true; re_items := lits (str "libc-") ++ [(Any, true)] ++ lits (str ".so"); re_end := false |} | _ => Some {| re_start := true; re_items := lits (str "libc.so"); re_end := false |} end = Some r) by (rewrite <- E; destruct a; vm_compute; reflexivity).
  clear E. assert (Y : (exists w post, s = w ++ post /\ items_in (lits (str "libc-") ++ [(Any, true)] ++ lits (str ".so")) w) <-> exists mid rest, s = str "libc-" ++ mid ++ str ".so" ++ rest).
  { split.
    - intros (w & post & -> & H). rewrite items_app in H. destruct H as (u & v & -> & H1 & H2). apply lits_in in H1. subst u. rewrite items_app in H2. destruct H2 as (u & v2 & -> & _ & H3). apply lits_in in H3. subst v2. exists u, post. rewrite <- !app_assoc. reflexivity.
    - intros (mid & rest & ->). exists (str "libc-" ++ mid ++ str ".so"), rest. split; [rewrite <- !app_assoc; reflexivity|]. apply items_app. do 2 eexists. split; [reflexivity|]. split; [apply lits_in; reflexivity|]. apply items_app. do 2 eexists. split; [reflexivity|]. split; [apply any_star|apply lits_in; reflexivity]. }
  assert (Z : (exists w post, s = w ++ post /\ items_in (lits (str "libc.so")) w) <-> begins (str "libc.so") s).
  { split; [intros (w & post & -> & H); apply lits_in in H; subst w; exists post; reflexivity|]. intros (rest & ->). do 2 eexists. split; [reflexivity|]. apply lits_in. reflexivity. }
  destruct a; apply some_inj in X; subst r; unfold regexec; cbn [re_start re_items re_end]; rewrite start_match; assumption.
Qed.
Lemma tcmalloc_match r : regcomp tcmalloc_pat = Some r -> forall s, regexec r s = true <-> exists mid rest, s = str "libtcmalloc" ++ mid ++ str ".so.4" ++ rest.
Proof.
  intros E s. assert (X : Some {| re_start := true; re_items := lits (str "libtcmalloc") ++ [(Any, true)] ++ lits (str ".so.4") ++ [(Any, true)]; re_end := false |} = Some r) by (rewrite <- E; vm_compute; reflexivity).
  apply some_inj in X. subst r. unfold regexec. cbn [re_start re_items re_end]. rewrite start_match. split.
  - intros (w & post & -> & H). rewrite items_app in H. destruct H as (u & v & -> & H1 & H2). apply lits_in in H1. subst u. rewrite items_app in H2. destruct H2 as (u & v2 & -> & _ & H3). rewrite items_app in H3. destruct H3 as (u2 & v3 & -> & H3 & _). apply lits_in in H3. subst u2. exists u, (v3 ++ post). rewrite <- !app_assoc. reflexivity.
  - intros (mid & rest & ->). exists (str "libtcmalloc" ++ mid ++ str ".so.4" ++ rest), []. split; [rewrite app_nil_r; reflexivity|]. apply items_app. do 2 eexists. split; [reflexivity|]. split; [apply lits_in; reflexivity|]. apply items_app. do 2 eexists. split; [reflexivity|]. split; [apply any_star|]. apply items_app. do 2 eexists. split; [reflexivity|]. split; [apply lits_in; reflexivity|apply any_star].
Qed.
Lemma items_plain s : plain_text s -> forall n, (List.length s < n)%nat -> items n s = Some (lits s, false).
Proof.
  induction s as [|c s IH]; intros P n L; (destruct n as [|n]; [cbn in L; lia|]); [reflexivity|].
  inversion_clear P as [|? ? Pc Ps]. assert (IH' : items n s = Some (lits s, false)) by (apply IH; [exact Ps|cbn in L; lia]).
  assert (C : c <> 46 /\ c <> 91 /\ c <> 93 /\ c <> 42 /\ c <> 92 /\ c <> 94 /\ c <> 36) by (repeat split; intros ->; apply Pc; vm_compute; tauto).
  cbn [items]. replace (c =? 92) with false by lia. replace (c =? 46) with false by lia. replace (c =? 36) with false by lia. cbn [andb].
  replace (special c) with false by (unfold special; cbn; rewrite orb_false_r; symmetry; repeat (apply orb_false_iff; split); apply Z.eqb_neq; lia).
  assert (S : match s with d :: _ => d =? 42 | [] => false end = false) by (destruct s as [|d s']; [reflexivity|]; inversion_clear Ps as [|? ? Pd _]; apply Z.eqb_neq; intros ->; apply Pd; vm_compute; tauto).
  rewrite S, IH'. reflexivity.
Qed.
Lemma plain_start pat : plain_text pat -> match pat with c :: _ => c =? 94 | [] => false end = false.
Proof. intros P. destruct pat as [|c pat]; [reflexivity|]. inversion_clear P as [|? ? Pc _]. apply Z.eqb_neq. intros ->. apply Pc. vm_compute. tauto. Qed.
Lemma plain_match pat r : plain_text pat -> regcomp pat = Some r -> forall s, regexec r s = true <-> contains pat s.
Proof.
  intros P E s. assert (X : regcomp pat = Some {| re_start := false; re_items := lits pat; re_end := false |}).
  { unfold regcomp. rewrite plain_start by exact P. rewrite items_plain; [reflexivity|exact P|lia]. }
  rewrite X in E. injection E as <-. unfold regexec. cbn [re_start re_items re_end]. rewrite from_spec. split.
  - intros (a & t & -> & H). apply start_match in H. destruct H as (w & post & -> & H). apply lits_in in H. subst w. exists a, post. reflexivity.
  - intros (a & b & ->). exists a, (pat ++ b). split; [reflexivity|]. apply start_match. exists pat, b. split; [reflexivity|]. apply lits_in. reflexivity.
Qed.
Lemma plain_compiles pat : plain_text pat -> regcomp pat <> None.
Proof.
  intros P. unfold regcomp. rewrite plain_start by exact P. rewrite items_plain by (exact P || lia). discriminate.
Qed.

Lemma riscv_junk f mk start len base m c m2 c2 : context_call_riscv f len base m c = Some (m2, c2) -> glibc_makecontext_riscv mk start f -> gr c 17 = mk ->
  mread m2 (gr c2 8 - 24) 8 = mread m (gr c 2 - gr c 2 mod 16 - 1048) 8.
Proof.
  unfold context_call_riscv. intros H G A. destruct (_ && _); [|discriminate]. cbv zeta in H.
  destruct (f _ _ _) as [[m' g']|] eqn:E; [|discriminate]. apply some_inj in H. apply pair_equal_spec in H. destruct H as [<- <-]. cbn [gr].
  rewrite A in E. destruct (G _ _ _ _ E) as (R & _ & k & K & W). rewrite R. unfold set_gr at 1. cbn [Z.eqb Pos.eqb].
  assert (B : 0 <= gr c 2 mod 16 < 16) by (apply Z.mod_pos_bound; lia).
  unfold set_gr in W. cbn [Z.eqb Pos.eqb] in W. set (fp := gr c 2 - gr c 2 mod 16 - 1024) in *.
  replace (gr c 2 - gr c 2 mod 16 - 1048) with (fp - 24) by (unfold fp; lia).
  assert (Q : fp + 1024 <= gr c 2) by (unfold fp; lia). clearbody fp.
  apply mread_ext. intros x Hx. unfold in_range in Hx. rewrite W by lia.
  rewrite mset_out by (unfold in_range; lia). apply mset_out. unfold in_range. lia.
Qed.

(** The decoded code *)
Lemma and_m16 v : 0 <= v < 2 ^ 64 -> Z.land v ((-16) mod 2 ^ 64) = v - v mod 16.
Proof.
  intros H. change ((-16) mod 2 ^ 64) with (Z.ldiff (Z.ones 64) (Z.ones 4)). rewrite Z.ldiff_land, Z.land_assoc, Z.land_ones, (Z.mod_small v) by lia.
  rewrite <- Z.ldiff_land, Z.ldiff_ones_r by lia. rewrite Z.shiftr_div_pow2, Z.shiftl_mul_pow2 by lia. change (2 ^ 4) with 16. rewrite Z.mod_eq by lia. lia.
Qed.
Lemma set_gr_same g r v : set_gr g r v r = v.
Proof. unfold set_gr. rewrite Z.eqb_refl. reflexivity. Qed.
Lemma xcode_makecontext base m g : 1168 <= g 4 < 2 ^ 64 ->
  exists m1 g1, xcode makecontext_code base m g = Some (g 0, m1, g1)
  /\ (forall x, m1 x = makecontext_entry m (g 4) (base + 45) x)
  /\ (forall x, g1 x = set_gr (set_gr (set_gr (set_gr (set_gr (set_gr g 5 (g 4 - g 4 mod 16 - 1024)) 3 (g 4 - g 4 mod 16 - 1024 - 128)) 7 (g 4 - g 4 mod 16 - 1024)) 6 256) 2 0) 4 (g 4 - 8) x).
Proof.
  intros H. assert (B : 0 <= g 4 mod 16 < 16) by (apply Z.mod_pos_bound; lia).
  unfold xcode. replace (xdecodes (S (length makecontext_code)) makecontext_code) with
    (Some [(XMov 5 4, 3%nat); (XAnd 5 (-16), 4%nat); (XSub 5 1024, 7%nat); (XLea 3 5 (-128), 4%nat); (XStore 5 16 3, 4%nat); (XStoreI 5 32 128, 8%nat); (XMov 7 5, 3%nat); (XMovI 6 256, 7%nat); (XXor 2 2, 3%nat); (XCall 0, 2%nat); (XTrap, 1%nat)])
    by (vm_compute; reflexivity).
  cbv [xrun set_gr]. cbn [Z.eqb Pos.eqb]. rewrite and_m16 by lia.
  rewrite (Z.mod_small (g 4 - g 4 mod 16 - 1024)) by lia. rewrite Z.lxor_nilpotent.
  rewrite (Z.mod_small (g 4 - g 4 mod 16 - 1024 + -128)), (Z.mod_small (g 4 - g 4 mod 16 - 1024 + 16)), (Z.mod_small (g 4 - g 4 mod 16 - 1024 + 32)), (Z.mod_small (g 4 - 8)) by lia.
  do 2 eexists. split; [reflexivity|]. split; intros x.
  - unfold makecontext_entry. cbv zeta. replace (base + 45) with (base + Z.of_nat 3 + Z.of_nat 4 + Z.of_nat 7 + Z.of_nat 4 + Z.of_nat 4 + Z.of_nat 8 + Z.of_nat 3 + Z.of_nat 7 + Z.of_nat 3 + Z.of_nat 2) by lia. reflexivity.
  - repeat match goal with |- context[if x =? ?k then _ else _] => destruct (x =? k) end; reflexivity || lia.
Qed.
