(** Proofs about the safety check. *)
From Coq Require Import ZArith List Bool Lia ZifyBool.
From Verif Require Import Base BaseProofs EngineModel SafetyModel SafetySpec.
Import ListNotations.
Open Scope Z_scope.

Section Scan.
Variable dir : direction.
Variable infos : list info.
Hypothesis HR : ranges_ok dir infos.

Lemma new_func_spec i : is_new_func i = false <-> replaces_code i.
Proof. unfold is_new_func, replaces_code. lia. Qed.

Lemma addr_in_spec i ip : In i infos -> replaces_code i ->
  addr_in_info ip i dir = true <-> in_range ip (leaving_start dir i) (leaving_len dir i).
Proof.
  intros Hi Hr. destruct (HR i Hi Hr) as (H1 & H2 & H3).
  unfold addr_in_info, half_interval, in_range in *. destruct dir; cbn [leaving_start leaving_len] in *;
    rewrite u64_small by lia; lia.
Qed.

Lemma hunk_of_sub l ip : (forall i, In i l -> In i infos) ->
  match hunk_of dir l ip with
  | Some v => v <> 0 /\ in_replaced dir l ip
  | None => ~ in_replaced dir l ip
  end.
Proof.
  induction l as [|i r IH]; intros Hs; cbn [hunk_of].
  - intros (i & [] & _).
  - assert (Hs' : forall j, In j r -> In j infos) by (intros; apply Hs; right; auto).
    specialize (IH Hs').
    assert (Hi : In i infos) by (apply Hs; left; auto).
    destruct (is_new_func i) eqn:En.
    + destruct (hunk_of dir r ip).
      * destruct IH as [IH1 (j & J1 & J2)]. split; auto. exists j. split; [right|]; auto.
      * intros (j & [<-|J1] & J2 & J3); [|apply IH; exists j; auto].
        apply new_func_spec in J2. congruence.
    + apply new_func_spec in En. destruct (addr_in_info ip i dir) eqn:Ea.
      * split; [destruct (HR i Hi En) as (H1 & _); destruct dir; cbn in H1; lia|].
        exists i. split; [left; auto|]. split; auto. apply addr_in_spec; auto.
      * destruct (hunk_of dir r ip).
        -- destruct IH as [IH1 (j & J1 & J2)]. split; auto. exists j. split; [right|]; auto.
        -- intros (j & [<-|J1] & J2 & J3); [|apply IH; exists j; auto].
           apply addr_in_spec in J3; auto. congruence.
Qed.

Lemma hunk_of_spec ip :
  match hunk_of dir infos ip with
  | Some v => v <> 0 /\ in_replaced dir infos ip
  | None => ~ in_replaced dir infos ip
  end.
Proof. apply hunk_of_sub. auto. Qed.

Lemma scan_last p ip rest : forall prev last retip, (prev = true -> last <> 0) ->
  (fst (scan p dir infos ip rest prev last retip) = 0 <->
   last = 0 /\ forall x, In x (ip :: rest) -> ~ in_replaced dir infos x).
Proof.
  revert ip. induction rest as [|ip' rest IH]; intros ip prev last retip Hp; cbn [scan];
    pose proof (hunk_of_spec ip) as HS; destruct (hunk_of dir infos ip) as [v|].
  - cbn [fst]. destruct HS as [H1 H2]. split; [lia|]. intros [_ H]. exfalso. apply (H ip); [left|]; auto.
  - assert (Hx : fst (if prev then if p then (last, ip) else (last, ip) else (last, retip)) = last)
      by (destruct prev, p; reflexivity).
    rewrite Hx. split; [|tauto]. intros E. split; auto. intros x [<-|[]]. exact HS.
  - destruct HS as [H1 H2]. rewrite IH by auto. split; [intros [? _]; contradiction|].
    intros [_ H]. exfalso. apply (H ip); [left|]; auto.
  - assert (Hin : (forall x, In x (ip :: ip' :: rest) -> ~ in_replaced dir infos x) <->
                  (forall x, In x (ip' :: rest) -> ~ in_replaced dir infos x)).
    { split; intros H x Hx; [apply H; right; auto|].
      destruct Hx as [<-|Hx]; [exact HS|apply H; auto]. }
    rewrite Hin. destruct prev; [destruct p|].
    + apply IH. discriminate.
    + cbn [fst]. specialize (Hp eq_refl). tauto.
    + apply IH. discriminate.
Qed.

Lemma single_safe p sk retip :
  fst (verify_single p dir infos sk retip) = 0 <->
  forall x, In x (seen sk) -> ~ in_replaced dir infos x.
Proof.
  unfold verify_single. rewrite scan_last by discriminate. unfold seen. tauto.
Qed.

Lemma coros_spec cs : forall f, 0 <= f ->
  match verify_coros dir infos cs f with
  | None => ~ Forall (clear_of dir infos) cs
  | Some f' => f <= f' <= f + zlen cs /\ (f' = f <-> Forall (clear_of dir infos) cs)
  end.
Proof.
  induction cs as [|c r IH]; intros f Hf; cbn [verify_coros].
  - unfold zlen; cbn. split; [lia|]. split; auto.
  - destruct c as [|sk].
    + intros H. inversion H as [|? ? (sk & E & _) _]. discriminate.
    + pose proof (single_safe false sk 0) as S1.
      destruct (verify_single false dir infos sk 0) as [last rt]. cbn [fst] in S1.
      assert (Hz : zlen (Unwound sk :: r) = 1 + zlen r) by (unfold zlen; cbn [length]; lia).
      rewrite Hz.
      destruct (Z.eqb_spec last 0) as [E|E].
      * specialize (IH f Hf). destruct (verify_coros dir infos r f) as [f'|].
        -- destruct IH as [I1 I2]. split; [lia|]. rewrite I2. split.
           ++ intros H. constructor; auto. exists sk. split; auto. apply S1; auto.
           ++ intros H. inversion H; auto.
        -- intros H. apply IH. inversion H; auto.
      * specialize (IH (f + 1) ltac:(lia)). destruct (verify_coros dir infos r (f + 1)) as [f'|].
        -- destruct IH as [I1 I2]. split; [lia|]. split; [lia|]. intros H. exfalso. apply E.
           inversion H as [|? ? (sk' & Ek & Hk) _]; subst. injection Ek as <-. apply S1; auto.
        -- intros H. apply IH. inversion H; auto.
Qed.

Lemma threads_spec ts : forall rt f, 0 <= f ->
  match fst (verify_threads dir infos ts rt f) with
  | None => ~ Forall (clear_of dir infos) ts
  | Some f' => f <= f' <= f + zlen ts /\ (f' = f <-> Forall (clear_of dir infos) ts)
  end.
Proof.
  induction ts as [|c r IH]; intros rt f Hf; cbn [verify_threads].
  - unfold zlen; cbn. split; [lia|]. split; auto.
  - destruct c as [|sk].
    + intros H. inversion H as [|? ? (sk & E & _) _]. discriminate.
    + pose proof (single_safe false sk rt) as S1.
      destruct (verify_single false dir infos sk rt) as [last rt']. cbn [fst] in S1.
      assert (Hz : zlen (Unwound sk :: r) = 1 + zlen r) by (unfold zlen; cbn [length]; lia).
      rewrite Hz.
      destruct (Z.eqb_spec last 0) as [E|E].
      * specialize (IH rt' f Hf). destruct (verify_threads dir infos r rt' f) as [[f'|] rs]; cbn [fst] in *.
        -- destruct IH as [I1 I2]. split; [lia|]. rewrite I2. split.
           ++ intros H. constructor; auto. exists sk. split; auto. apply S1; auto.
           ++ intros H. inversion H; auto.
        -- intros H. apply IH. inversion H; auto.
      * specialize (IH rt' (f + 1) ltac:(lia)).
        destruct (verify_threads dir infos r rt' (f + 1)) as [[f'|] rs]; cbn [fst] in *.
        -- destruct IH as [I1 I2]. split; [lia|]. split; [lia|]. intros H. exfalso. apply E.
           inversion H as [|? ? (sk' & Ek & Hk) _]; subst. injection Ek as <-. apply S1; auto.
        -- intros H. apply IH. inversion H; auto.
Qed.

Lemma s32_zero x : 0 <= x < 2 ^ 32 -> (s32 x = 0 <-> x = 0).
Proof.
  intros H. unfold s32, sext. rewrite Z.mod_small by exact H. change (2 ^ (32 - 1)) with (2 ^ 31).
  destruct (x <? 2 ^ 31) eqn:E; lia.
Qed.

Lemma lor_bit_nonzero f : 0 < f -> s32 (Z.lor f coro_unsafe) <> 0 /\
  Z.land (u64 (s32 (Z.lor f coro_unsafe))) coro_unsafe <> 0.
Proof.
  intros Hf.
  assert (T : Z.testbit (u64 (s32 (Z.lor f coro_unsafe))) 20 = true).
  { unfold s32, sext, u64. set (y := Z.lor f coro_unsafe mod 2 ^ 32).
    assert (Ty : Z.testbit y 20 = true).
    { unfold y. rewrite Z.mod_pow2_bits_low by lia. rewrite Z.lor_spec.
      unfold coro_unsafe. rewrite (Z.pow2_bits_true 20) by lia. apply orb_true_r. }
    destruct (y <? 2 ^ (32 - 1)); rewrite Z.mod_pow2_bits_low by lia; auto.
    replace (y - 2 ^ 32) with (y + (-1) * 2 ^ 32) by lia.
    rewrite <- (Z.mod_pow2_bits_low (y + -1 * 2 ^ 32) 32) by lia.
    rewrite Z_mod_plus_full. rewrite Z.mod_pow2_bits_low by lia. exact Ty. }
  split.
  - intros E. rewrite E in T. discriminate.
  - intros E.
    assert (T2 : Z.testbit (Z.land (u64 (s32 (Z.lor f coro_unsafe))) coro_unsafe) 20 = true).
    { rewrite Z.land_spec, T. reflexivity. }
    rewrite E in T2. discriminate.
Qed.

Theorem verify_safe_iff coros threads junk : zlen threads < 2 ^ 32 ->
  (fst (verify_safety dir infos coros threads junk) = 0 <->
   Forall (clear_of dir infos) (coros ++ threads)).
Proof.
  intros Hn. unfold verify_safety. rewrite Forall_app.
  pose proof (coros_spec coros 0 ltac:(lia)) as HC.
  destruct (verify_coros dir infos coros 0) as [f|]; [|cbn [fst]; split; [lia|tauto]].
  destruct HC as [C1 C2]. destruct (Z.eqb_spec f 0) as [E|E]; cbn [negb].
  - pose proof (threads_spec threads junk 0 ltac:(lia)) as HT.
    destruct (verify_threads dir infos threads junk 0) as [[g|] rs]; cbn [fst] in *.
    + destruct HT as [T1 T2]. rewrite s32_zero by lia. tauto.
    + split; [lia|tauto].
  - cbn [fst]. pose proof (lor_bit_nonzero f ltac:(lia)) as [L _]. split; [contradiction|]. tauto.
Qed.

Lemma u64_zero x : - 2 ^ 63 <= x < 2 ^ 63 -> u64 x = 0 -> x = 0.
Proof.
  intros H E. unfold u64 in E. apply Z.mod_divide in E; [|lia]. destruct E as [k E]. nia.
Qed.

Lemma s32_range x : - 2 ^ 31 <= s32 x < 2 ^ 31.
Proof.
  unfold s32, sext. pose proof (Z.mod_pos_bound x (2 ^ 32) ltac:(lia)).
  change (2 ^ (32 - 1)) with (2 ^ 31). destruct (x mod 2 ^ 32 <? 2 ^ 31) eqn:E; lia.
Qed.

Lemma verify_range coros threads junk :
  - 2 ^ 31 <= fst (verify_safety dir infos coros threads junk) < 2 ^ 31.
Proof.
  unfold verify_safety. destruct (verify_coros dir infos coros 0) as [f|]; [|cbn; lia].
  destruct (negb (f =? 0)); [apply s32_range|].
  destruct (verify_threads dir infos threads junk 0) as [[g|] rs]; [apply s32_range|cbn; lia].
Qed.

Theorem ensure_safe w :
  zlen (w_threads w) < 2 ^ 32 -> zlen (w_threads' w) < 2 ^ 32 ->
  (forall l, - 2 ^ 31 <= w_until w l < 2 ^ 31) -> - 2 ^ 31 <= w_attach w < 2 ^ 31 ->
  ensure_safety dir infos w = 0 ->
  Forall (clear_of dir infos) (w_coros w ++ w_threads w) \/
  (~ Forall (clear_of dir infos) (w_coros w ++ w_threads w) /\
   (exists l, w_until w l = 0) /\ w_attach w = 0 /\
   Forall (clear_of dir infos) (w_coros' w ++ w_threads' w)).
Proof.
  intros N1 N2 Ru Ra. unfold ensure_safety. destruct (w_malloc w); cbn [negb]; [|discriminate].
  pose proof (verify_safe_iff (w_coros w) (w_threads w) (w_junk w) N1) as V1.
  pose proof (verify_range (w_coros w) (w_threads w) (w_junk w)) as R1.
  destruct (verify_safety dir infos (w_coros w) (w_threads w) (w_junk w)) as [r1 rs]. cbn [fst] in *.
  destruct (Z.eqb_spec (u64 r1) 0) as [E|E]; cbn [negb andb].
  - intros _. left. apply V1. apply u64_zero; [lia|exact E].
  - assert (r1 <> 0) by (intros ->; apply E; reflexivity).
    destruct (Z.eqb_spec (Z.land (u64 r1) coro_unsafe) 0) as [E2|E2].
    2:{ destruct (Z.eqb_spec (u64 r1) 0); [contradiction|discriminate]. }
    destruct (Z.eqb_spec (u64 (w_until w rs)) 0) as [E3|E3].
    2:{ destruct (Z.eqb_spec (u64 (w_until w rs)) 0); [contradiction|].
        destruct (Z.eqb_spec (u64 (w_until w rs)) 0); [contradiction|discriminate]. }
    destruct (Z.eqb_spec (u64 (w_attach w)) 0) as [E4|E4].
    2:{ destruct (Z.eqb_spec (u64 (w_attach w)) 0); [contradiction|discriminate]. }
    pose proof (verify_range (w_coros' w) (w_threads' w) (w_junk' w)) as R2.
    destruct (Z.eqb_spec (u64 (fst (verify_safety dir infos (w_coros' w) (w_threads' w) (w_junk' w)))) 0)
      as [E5|E5]; [intros _|discriminate].
    right. split; [tauto|]. split; [exists rs; apply u64_zero; [specialize (Ru rs); lia|exact E3]|].
    split; [apply u64_zero; [lia|exact E4]|].
    apply (verify_safe_iff _ _ (w_junk' w) N2). apply u64_zero; [lia|exact E5].
Qed.

Theorem ensure_complete w : w_malloc w = true -> zlen (w_threads w) < 2 ^ 32 ->
  Forall (clear_of dir infos) (w_coros w ++ w_threads w) -> ensure_safety dir infos w = 0.
Proof.
  intros Hm N HF. unfold ensure_safety. rewrite Hm. cbn [negb].
  pose proof (verify_safe_iff (w_coros w) (w_threads w) (w_junk w) N) as V1. apply V1 in HF.
  destruct (verify_safety dir infos (w_coros w) (w_threads w) (w_junk w)) as [r1 rs]. cbn [fst] in *.
  subst r1. reflexivity.
Qed.

Theorem ensure_coro w c : In (Unwound c) (w_coros w) ->
  (exists ip, In ip (seen c) /\ in_replaced dir infos ip) ->
  ensure_safety dir infos w = -1.
Proof.
  intros Hc (ip & I1 & I2).
  assert (Hnot : ~ Forall (clear_of dir infos) (w_coros w)).
  { intros HF. rewrite Forall_forall in HF. destruct (HF _ Hc) as (sk & E & H).
    injection E as <-. exact (H ip I1 I2). }
  unfold ensure_safety. destruct (w_malloc w); cbn [negb]; [|reflexivity].
  unfold verify_safety. pose proof (coros_spec (w_coros w) 0 ltac:(lia)) as HC.
  destruct (verify_coros dir infos (w_coros w) 0) as [f|]; [|reflexivity].
  destruct HC as [C1 C2]. destruct (Z.eqb_spec f 0) as [E|E]; [exfalso; tauto|]. cbn [negb].
  pose proof (lor_bit_nonzero f ltac:(lia)) as [L1 L2].
  destruct (Z.eqb_spec (Z.land (u64 (s32 (Z.lor f coro_unsafe))) coro_unsafe) 0); [contradiction|].
  rewrite andb_false_r.
  destruct (Z.eqb_spec (u64 (s32 (Z.lor f coro_unsafe))) 0) as [E2|E2]; [|reflexivity].
  exfalso. apply L1. apply u64_zero; auto. pose proof (s32_range (Z.lor f coro_unsafe)). lia.
Qed.

(** Which address a thread is run to. *)
Lemma scan_pre pre : forall ip rest retip last, ~ in_replaced dir infos ip ->
  (forall x, In x pre -> ~ in_replaced dir infos x) ->
  forall ip' rest', rest = pre ++ ip' :: rest' ->
  scan false dir infos ip rest false last retip = scan false dir infos ip' rest' false last retip.
Proof.
  induction pre as [|q pre IH]; intros ip rest retip last H1 H2 ip' rest' ->; cbn [scan app];
    pose proof (hunk_of_spec ip) as HS; (destruct (hunk_of dir infos ip) as [v|]; [tauto|]).
  - reflexivity.
  - exact (IH q _ retip last (H2 q (or_introl eq_refl)) (fun x Hx => H2 x (or_intror Hx)) ip' rest' eq_refl).
Qed.

Lemma scan_group grp : forall ip rest prev retip last, in_replaced dir infos ip ->
  (forall x, In x grp -> in_replaced dir infos x) ->
  forall ip' rest', rest = grp ++ ip' :: rest' ->
  exists v, v <> 0 /\
  scan false dir infos ip rest prev last retip = scan false dir infos ip' rest' true v retip.
Proof.
  induction grp as [|q grp IH]; intros ip rest prev retip last H1 H2 ip' rest' ->; cbn [scan app];
    pose proof (hunk_of_spec ip) as HS; (destruct (hunk_of dir infos ip) as [v|]; [|tauto]).
  - exists v. split; [tauto|reflexivity].
  - exact (IH q _ true retip v (H2 q (or_introl eq_refl)) (fun x Hx => H2 x (or_intror Hx)) ip' rest' eq_refl).
Qed.

Lemma scan_group_end grp : forall ip prev retip last, in_replaced dir infos ip ->
  (forall x, In x grp -> in_replaced dir infos x) ->
  exists v, v <> 0 /\ scan false dir infos ip grp prev last retip = (v, retip).
Proof.
  induction grp as [|q grp IH]; intros ip prev retip last H1 H2; cbn [scan];
    pose proof (hunk_of_spec ip) as HS; (destruct (hunk_of dir infos ip) as [v|]; [|tauto]).
  - exists v. split; [tauto|reflexivity].
  - exact (IH q true retip v (H2 q (or_introl eq_refl)) (fun x Hx => H2 x (or_intror Hx))).
Qed.

Lemma scan_caller pre g grp ip rest sk retip :
  seen sk = pre ++ g :: grp ++ ip :: rest ->
  (forall x, In x pre -> ~ in_replaced dir infos x) ->
  in_replaced dir infos g -> (forall x, In x grp -> in_replaced dir infos x) ->
  ~ in_replaced dir infos ip ->
  exists v, v <> 0 /\ verify_single false dir infos sk retip = (v, ip).
Proof.
  intros E H1 H2 H3 H4. unfold verify_single, seen in *.
  assert (Q : scan false dir infos (sk_ip sk) (sk_rest sk) false 0 retip =
              scan false dir infos g (grp ++ ip :: rest) false 0 retip).
  { destruct pre as [|q pre]; cbn [app] in E; injection E as E1 E2.
    - rewrite E1, E2. reflexivity.
    - rewrite E1. eapply scan_pre; [apply H1; left; auto| |exact E2]. intros x Hx. apply H1. right; auto. }
  rewrite Q.
  destruct (scan_group grp g (grp ++ ip :: rest) false retip 0 H2 H3 ip rest eq_refl) as (v & V1 & V2).
  exists v. split; auto. rewrite V2.
  destruct rest; cbn [scan]; pose proof (hunk_of_spec ip) as HS;
    (destruct (hunk_of dir infos ip); [tauto|reflexivity]).
Qed.

Lemma scan_no_caller pre g grp sk retip :
  seen sk = pre ++ g :: grp ->
  (forall x, In x pre -> ~ in_replaced dir infos x) ->
  in_replaced dir infos g -> (forall x, In x grp -> in_replaced dir infos x) ->
  exists v, v <> 0 /\ verify_single false dir infos sk retip = (v, retip).
Proof.
  intros E H1 H2 H3. unfold verify_single, seen in *.
  assert (Q : scan false dir infos (sk_ip sk) (sk_rest sk) false 0 retip =
              scan false dir infos g grp false 0 retip).
  { destruct pre as [|q pre]; cbn [app] in E; injection E as E1 E2.
    - rewrite E1, E2. reflexivity.
    - rewrite E1. eapply scan_pre; [apply H1; left; auto| |exact E2]. intros x Hx. apply H1. right; auto. }
  rewrite Q. apply scan_group_end; auto.
Qed.

(** The addresses the threads are run to, thread by thread. *)
Lemma verify_threads_retip ts : forall rt f k sk,
  (forall l, In l ts -> l <> NoContext) ->
  nth_error ts k = Some (Unwound sk) ->
  exists rt0, nth_error (snd (verify_threads dir infos ts rt f)) k =
    Some (if fst (verify_single false dir infos sk rt0) =? 0 then 0
          else snd (verify_single false dir infos sk rt0)).
Proof.
  induction ts as [|c r IH]; intros rt f k sk HN Hk; [destruct k; discriminate|].
  cbn [verify_threads]. destruct c as [|sk0]; [exfalso; apply (HN NoContext); [left|]; auto|].
  assert (HN' : forall l, In l r -> l <> NoContext) by (intros; apply HN; right; auto).
  destruct (verify_single false dir infos sk0 rt) as [last rt'] eqn:Ev.
  destruct k as [|k]; cbn [nth_error] in Hk.
  - injection Hk as ->. exists rt. rewrite Ev. cbn [fst snd].
    destruct (verify_threads dir infos r rt' (if last =? 0 then f else f + 1)) as [res rs]. reflexivity.
  - destruct (IH rt' (if last =? 0 then f else f + 1) k sk HN' Hk) as (rt0 & E). exists rt0.
    destruct (verify_threads dir infos r rt' (if last =? 0 then f else f + 1)) as [res rs]. exact E.
Qed.

Lemma verify_threads_no_context ts : forall rt f, In NoContext ts -> fst (verify_threads dir infos ts rt f) = None.
Proof.
  induction ts as [|c r IH]; intros rt f []; subst; cbn [verify_threads]; [reflexivity|].
  destruct c as [|sk]; [reflexivity|].
  destruct (verify_single false dir infos sk rt) as [last rt'].
  specialize (IH rt' (if last =? 0 then f else f + 1) H).
  destruct (verify_threads dir infos r rt' (if last =? 0 then f else f + 1)) as [res rs]. exact IH.
Qed.

Theorem run_until_caller coros threads junk k sk pre g grp ip rest :
  (forall l, In l (coros ++ threads) -> l <> NoContext) ->
  Forall (clear_of dir infos) coros ->
  nth_error threads k = Some (Unwound sk) ->
  seen sk = pre ++ g :: grp ++ ip :: rest ->
  (forall x, In x pre -> ~ in_replaced dir infos x) ->
  in_replaced dir infos g -> (forall x, In x grp -> in_replaced dir infos x) ->
  ~ in_replaced dir infos ip ->
  nth_error (snd (verify_safety dir infos coros threads junk)) k = Some ip.
Proof.
  intros HN HC Hk Hs H1 H2 H3 H4. unfold verify_safety.
  pose proof (coros_spec coros 0 ltac:(lia)) as CS.
  destruct (verify_coros dir infos coros 0) as [f|]; [|tauto].
  destruct CS as [C1 C2]. apply C2 in HC. subst f. cbn [negb Z.eqb].
  assert (HN' : forall l, In l threads -> l <> NoContext) by (intros; apply HN, in_or_app; auto).
  destruct (verify_threads_retip threads junk 0 k sk HN' Hk) as (rt0 & E).
  destruct (scan_caller pre g grp ip rest sk rt0 Hs H1 H2 H3 H4) as (v & V1 & V2).
  rewrite V2 in E. cbn [fst snd] in E. destruct (Z.eqb_spec v 0); [contradiction|].
  destruct (verify_threads dir infos threads junk 0) as [[g'|] rs]; exact E.
Qed.

End Scan.
