(** Invariants of applying a patch, and correctness of roll-back and unpatch. *)
From Coq Require Import ZArith List Bool Lia ZifyBool ZifyNat.
From Verif Require Import Base BaseProofs RemoteModel JumpModel EngineModel EngineSpec LayoutProofs.
Import ListNotations.
Open Scope Z_scope.
Ltac Zify.zify_post_hook ::= Z.div_mod_to_equations.

(** ** Triples over code working on an object: normal end, error, death of the
    tool.  Such code never hangs or goes out of bounds. *)
Definition triple {X} (P : obj -> st -> Prop) (x : OM X)
    (Q : X -> obj -> st -> Prop) (E D : obj -> st -> Prop) : Prop :=
  forall o s, P o s ->
  match x o s with
  | (Ret a, o', s') => Q a o' s'
  | (Err, o', s') => E o' s'
  | (Die, o', s') => D o' s'
  | _ => False
  end.

Lemma t_bind {X Y} P (x : OM X) R (f : X -> OM Y) Q E D :
  triple P x R E D -> (forall a, triple (R a) (f a) Q E D) -> triple P (obind x f) Q E D.
Proof.
  intros H1 H2 o s HP. specialize (H1 o s HP). unfold obind.
  destruct (x o s) as [[[a| | | |] o'] s']; auto. apply H2. exact H1.
Qed.
Lemma t_conseq {X} (P P' : obj -> st -> Prop) (x : OM X) (Q Q' : X -> obj -> st -> Prop) (E E' D D' : obj -> st -> Prop) :
  triple P x Q E D -> (forall o s, P' o s -> P o s) ->
  (forall a o s, Q a o s -> Q' a o s) -> (forall o s, E o s -> E' o s) ->
  (forall o s, D o s -> D' o s) -> triple P' x Q' E' D'.
Proof.
  intros H HP HQ HE HD o s H'. specialize (H o s (HP o s H')).
  destruct (x o s) as [[[a| | | |] o'] s']; auto.
Qed.
Lemma t_get P E D : triple P oget (fun a o s => a = o /\ P o s) E D.
Proof. intros o s H. cbn. auto. Qed.
Lemma t_ret {X} (a : X) (P : X -> obj -> st -> Prop) E D : triple (P a) (oret a) P E D.
Proof. intros o s H. exact H. Qed.
Lemma t_fail {X} (P : obj -> st -> Prop) (Q : X -> obj -> st -> Prop) D : triple P ofail Q P D.
Proof. intros o s H. exact H. Qed.
Lemma t_put (P : obj -> st -> Prop) o' (Q : unit -> obj -> st -> Prop) E D :
  (forall o s, P o s -> Q tt o' s) -> triple P (oput o') Q E D.
Proof. intros H o s HP. cbn. eapply H; eauto. Qed.

(** Triples for single remote operations. *)
Definition mtriple {X} (P : st -> Prop) (x : M X) (Q : X -> st -> Prop) (E D : st -> Prop) : Prop :=
  forall s, P s ->
  match x s with
  | (Ret a, s') => Q a s'
  | (Err, s') => E s'
  | (Die, s') => D s'
  | _ => False
  end.
Lemma t_lift {X} P (x : M X) Q E D :
  (forall o, mtriple (P o) x (fun a => Q a o) (E o) (D o)) -> triple P (lift x) Q E D.
Proof.
  intros H o s HP. specialize (H o s HP). unfold lift.
  destruct (x s) as [[a| | | |] s']; exact H.
Qed.
Lemma m_bind {X Y} P (x : M X) R (f : X -> M Y) Q E D :
  mtriple P x R E D -> (forall a, mtriple (R a) (f a) Q E D) -> mtriple P (bind x f) Q E D.
Proof.
  intros H1 H2 s HP. specialize (H1 s HP). unfold bind.
  destruct (x s) as [[a| | | |] s']; auto. apply H2. exact H1.
Qed.

(** Conditions that depend on memory and protections only. *)
Definition mx (P : mem -> (Z -> bool) -> Prop) (s : st) : Prop := P (sm s) (sx s).

Lemma pop_mx s : sm (snd (pop s)) = sm s /\ sx (snd (pop s)) = sx s.
Proof. unfold pop. destruct (so s); split; reflexivity. Qed.

Lemma m_choice P : mtriple (mx P) choice (fun _ => mx P) (mx P) (mx P).
Proof.
  intros s H. unfold choice. pose proof (pop_mx s) as [E1 E2].
  destruct (pop s) as [a s']. cbn [snd] in *. unfold mx in *. rewrite <- E1, <- E2 in H.
  destruct a; exact H.
Qed.

Lemma m_read P a n : mtriple (mx P) (mem_read a n)
  (fun bs s => mx P s /\ mread (sm s) a n = Some bs) (mx P) (mx P).
Proof.
  intros s H. unfold mem_read. pose proof (pop_mx s) as [E1 E2].
  destruct (pop s) as [an s']. cbn [snd] in *. unfold mx in *. rewrite <- E1, <- E2 in H.
  destruct an; auto. destruct (mread (sm s') a n) eqn:E; auto.
Qed.

(** A write, however it ends, changes a prefix of the target range; when it
    succeeds it changes all of it, which was mapped. *)
Lemma m_write (P : mem -> (Z -> bool) -> Prop) a bs (Q F : mem -> (Z -> bool) -> Prop) :
  (forall m x, P m x -> mapped m a (zlen bs) -> Q (mset m a bs) x) ->
  (forall m x k, P m x -> mapped m a (zlen (firstn k bs)) -> F (mset m a (firstn k bs)) x) ->
  mtriple (mx P) (mem_write a bs) (fun _ => mx Q) (mx F) (mx F).
Proof.
  intros HQ HF s H. unfold mem_write. pose proof (pop_mx s) as [E1 E2].
  destruct (pop s) as [an s']. cbn [snd] in *. unfold mx in *. rewrite <- E1, <- E2 in H.
  assert (Hpre : forall l, (length l <= length bs)%nat -> firstn (length l) bs = l ->
            F (snd (pwrite (sm s') a l)) (sx s')).
  { intros l Hl Hp. unfold pwrite. cbn [snd].
    set (k := maplen (sm s') a (length l)).
    assert (Hk : (k <= length l)%nat) by apply maplen_le.
    assert (Em : maplen (sm s') a k = k).
    { clear - Hk. subst k. revert Hk. generalize (length l). clear. intros n.
      revert a. induction n as [|n IH]; intros a Hk; [reflexivity|].
      cbn [maplen] in *. destruct (sm s' a) eqn:E; [|reflexivity].
      cbn [maplen]. rewrite E. f_equal. apply IH. lia. }
    apply maplen_full in Em.
    rewrite <- Hp. rewrite firstn_firstn, Nat.min_l by lia.
    apply HF; auto. replace (zlen (firstn k bs)) with (Z.of_nat k); [exact Em|].
    unfold zlen. rewrite firstn_length. lia. }
  destruct an as [|k|k].
  - unfold pwrite. destruct (Nat.eqb_spec (maplen (sm s') a (length bs)) (length bs)) as [C|C].
    + cbn [sm sx with_sm]. rewrite C, firstn_all. apply HQ; auto. apply maplen_full. exact C.
    + specialize (Hpre bs ltac:(lia) (firstn_all bs)). exact Hpre.
  - apply Hpre; [rewrite firstn_length; lia|].
    rewrite firstn_length. destruct (Nat.le_ge_cases k (length bs)).
    + rewrite Nat.min_l by lia. reflexivity.
    + rewrite Nat.min_r by lia. rewrite firstn_all. symmetry. apply firstn_all2. lia.
  - apply Hpre; [rewrite firstn_length; lia|].
    rewrite firstn_length. destruct (Nat.le_ge_cases k (length bs)).
    + rewrite Nat.min_l by lia. reflexivity.
    + rewrite Nat.min_r by lia. rewrite firstn_all. symmetry. apply firstn_all2. lia.
Qed.

Lemma m_copy (P : mem -> (Z -> bool) -> Prop) dst src n (Q F : mem -> (Z -> bool) -> Prop) :
  (forall m x, P m x -> F m x) ->
  (forall m x bs, P m x -> mread m src n = Some bs -> mapped m dst (zlen bs) -> Q (mset m dst bs) x) ->
  (forall m x bs k, P m x -> mread m src n = Some bs -> mapped m dst (zlen (firstn k bs)) ->
      F (mset m dst (firstn k bs)) x) ->
  mtriple (mx P) (mem_copy dst src n) (fun _ => mx Q) (mx F) (mx F).
Proof.
  intros H0 HQ HF. unfold mem_copy.
  eapply m_bind with (R := fun _ => mx P).
  { intros s H. pose proof (m_choice P s H) as HC. destruct (choice s) as [[a| | | |] s']; auto;
      unfold mx in *; auto. }
  intros _. eapply m_bind with (R := fun bs s => mx (fun m x => P m x /\ mread m src n = Some bs) s).
  { intros s H. pose proof (m_read P src n s H) as HC. destruct (mem_read src n s) as [[a| | | |] s']; auto;
      unfold mx in *; auto. }
  intros bs. apply m_write.
  - intros m x [H1 H2] Hm. eapply HQ; eauto.
  - intros m x k [H1 H2] Hm. eapply HF; eauto.
Qed.

Definition sx_clear (x : Z -> bool) (a n : Z) : Z -> bool :=
  fun y => if (a <=? y) && (y <? a + n) then false else x y.

Lemma m_mmap (P : mem -> (Z -> bool) -> Prop) pg a n (Q F : mem -> (Z -> bool) -> Prop) :
  (forall m x, P m x -> F m x) ->
  (forall m x, P m x -> range_ok pg a n = true ->
     Q (mmap_fixed m a (round_up n pg)) (sx_clear x a (round_up n pg)) /\
     F (mmap_fixed m a (round_up n pg)) (sx_clear x a (round_up n pg))) ->
  mtriple (mx P) (mmap_remote pg a n) (fun r s => r = a /\ range_ok pg a n = true /\ mx Q s) (mx F) (mx F).
Proof.
  intros H0 H1 s H. unfold mmap_remote. pose proof (pop_mx s) as [E1 E2].
  destruct (pop s) as [an s']. cbn [snd] in *. unfold mx in *. rewrite <- E1, <- E2 in H.
  destruct (range_ok pg a n) eqn:E; cbn [negb].
  - destruct (H1 _ _ H eq_refl) as [H1q H1f].
    destruct an as [|[|k]|[|k]]; cbn [sm sx with_map];
      first [exact (H0 _ _ H) | exact H1f | exact (conj eq_refl (conj eq_refl H1q))].
  - destruct an; cbn; auto.
Qed.

(** ** Facts about one patch, fixed from here on. *)
Lemma infos_of_length bs o k : length (infos_of bs o k) = k.
Proof. revert o; induction k as [|k IH]; intros o; cbn; [reflexivity|]. now rewrite IH. Qed.

Lemma update_length {X} (l : list X) j f : length (update l j f) = length l.
Proof. revert j; induction l as [|x l IH]; intros [|j]; cbn; auto. Qed.
Lemma nth_update_same {X} (l : list X) j f d : (j < length l)%nat -> nth j (update l j f) d = f (nth j l d).
Proof. revert j; induction l as [|x l IH]; intros [|j] Hj; cbn in *; try lia; auto. apply IH. lia. Qed.
Lemma nth_update_other {X} (l : list X) j k f d : j <> k -> nth k (update l j f) d = nth k l d.
Proof. revert j k; induction l as [|x l IH]; intros [|j] [|k] Hj; cbn; auto; try congruence. Qed.

Lemma mark_is_applied i : is_applied (mark_applied i) = true.
Proof.
  unfold is_applied, mark_applied, applied_bit. cbn [flags].
  rewrite Z.land_lor_distr_l, Z.land_diag.
  destruct (Z.eqb_spec (Z.lor (Z.land (flags i) (2 ^ 31)) (2 ^ 31)) 0) as [C|C]; [|reflexivity].
  apply Z.lor_eq_0_iff in C. destruct C as [_ C]. discriminate C.
Qed.
Lemma mark_mark i : mark_applied (mark_applied i) = mark_applied i.
Proof.
  unfold mark_applied. cbn [daddr saddr dlen slen flags]. f_equal.
  rewrite <- Z.lor_assoc, Z.lor_diag. reflexivity.
Qed.

Ltac splits := unfold mx in *; repeat match goal with |- _ /\ _ => split end.

Section OnePatch.
Variable A : arch.
Variables jent pg : Z.
Hypothesis HM : machine_ok A jent pg.
Variable p : patch.
Variable off : Z.
Variable n : nat.
Hypothesis HP : patch_ok A jent pg p off n.

Let H := a_hunk A.
Let h' := region_hdr A jent pg p off n.
Let sz := region_size A jent pg p off n.

Lemma facts : layout_facts A jent pg (p_hdr p) (p_undef p) off n h' sz.
Proof.
  destruct HM as [HM1 HM2 HM3 HM4]. destruct HP as [P1 P2 P3 P4 P5 P6 P7 P8 P9 P10 P11].
  apply (layout_spec A jent pg (p_hdr p) (p_undef p) off n h' sz); try assumption.
  - clear - P6 P8. lia.
  - unfold h', sz, region_hdr, region_size. destruct (layout _ _ _ _ _ _ _); reflexivity.
Qed.

Let E := get32 h' h_elf_offset.
Let U := get32 h' h_user_undo.

(** The memory before patching, the mapped region. *)
Variable m0 : mem.
Variable base : Z.
Hypothesis Hrange : range_ok pg base sz = true.

(** The linked image for this base. *)
Variable img jt : list Z.
Hypothesis Hlink : p_link p base h' = Some (img, jt).
Let infos := infos_of img off n.
Hypothesis Hent : entries_ok infos H base sz.

Definition in_region (x : Z) : Prop := in_range x base sz.

(** Outside the region and the entry points nothing has changed. *)
Definition frame (m : mem) : Prop :=
  forall x, ~ in_region x -> ~ at_entry infos H x -> m x = m0 x.
Definition slot (j : nat) : Z := base + U + Z.of_nat j * H.
Definition saved (m : mem) (j : nat) (d : Z) : Prop :=
  forall k, 0 <= k < H ->
    m (slot j + k) = m0 (d + k) /\ m0 (d + k) <> None /\ m (d + k) <> None.
Definition orig (m : mem) (d : Z) : Prop := forall k, 0 <= k < H -> m (d + k) = m0 (d + k).
Definition written (m : mem) (a : Z) (bs : list Z) : Prop :=
  forall k, 0 <= k < zlen bs -> m (a + k) = Some (nth (Z.to_nat k) bs 0).

(** A table of entries that differs from the patch's only in the flags. *)
Definition same_infos (l : list info) : Prop :=
  length l = n /\
  forall j, nth j l zinfo = nth j infos zinfo \/ nth j l zinfo = mark_applied (nth j infos zinfo).

Definition code_at (m : mem) (j : nat) (d : Z) : Prop :=
  exists c, a_code A d (saddr (nth j infos zinfo)) = Some c /\ written m d c.

(** State of the entry points while hunks are being written: the first [k] are
    done, the others untouched. *)
Definition hunks_at (k : nat) (m : mem) (l : list info) : Prop :=
  forall j d, replaces infos j d ->
    ((j < k)%nat -> saved m j d /\ is_applied (nth j l zinfo) = true /\ code_at m j d) /\
    ((k <= j)%nat -> orig m d /\ is_applied (nth j l zinfo) = false).

(** Every entry point is either untouched, or its code is saved; in that case the
    local table says so. *)
Definition recoverable (m : mem) (l : list info) : Prop :=
  forall j d, replaces infos j d ->
    (is_applied (nth j l zinfo) = true /\ saved m j d) \/
    (is_applied (nth j l zinfo) = false /\ orig m d).

Definition region_written (m : mem) : Prop :=
  written m base h' /\ written m (base + E) img.
Definition all_saved (m : mem) : Prop := forall j d, replaces infos j d -> saved m j d.

Lemma region_bounds : 0 <= base /\ base + sz <= task_size /\ round_up sz pg = sz.
Proof.
  pose proof (lf_sz_up _ _ _ _ _ _ _ _ _ facts) as Hup.
  pose proof Hrange as Hr. unfold range_ok in Hr. rewrite Hup in Hr. lia.
Qed.

Lemma replaces_bound j d : replaces infos j d -> (j < n)%nat.
Proof.
  intros (i & Hi & _).
  assert (Hlt : (j < length infos)%nat) by (apply nth_error_Some; congruence).
  unfold infos in Hlt. rewrite infos_of_length in Hlt. exact Hlt.
Qed.
Lemma replaces_nth j d : replaces infos j d ->
  is_new_func (nth j infos zinfo) = false /\ daddr (nth j infos zinfo) = d.
Proof.
  intros (i & Hi & Hn & Hd). apply (nth_error_nth infos j zinfo) in Hi. rewrite Hi. auto.
Qed.
Lemma nth_replaces j : (j < n)%nat -> is_new_func (nth j infos zinfo) = false ->
  replaces infos j (daddr (nth j infos zinfo)).
Proof.
  intros Hj Hn. exists (nth j infos zinfo). repeat split; auto.
  apply nth_error_nth'. unfold infos. rewrite infos_of_length. exact Hj.
Qed.

Lemma nums : 0 < H <= 16 /\ 504 <= E /\ zlen img = get32 (p_hdr p) h_total_size - 504 /\
  E + zlen img <= U /\ U + H * Z.of_nat n <= sz /\ 0 <= base /\ base + sz <= 2 ^ 47 /\
  length h' = 504%nat /\ 0 < sz < 2 ^ 32 /\ length img = Z.to_nat (zlen img).
Proof.
  pose proof facts as [L1 L2 L3 L4 L5 L6 L7 L8 L9 L10 L11 L12 L13 L14 L15 L16 L17].
  pose proof region_bounds as (Hb1 & Hb2 & _).
  destruct HM as [HM1 HM2 HM3 HM4]. destruct HP as [P1 P2 P3 P4 P5 P6 P7 P8 P9 P10 P11].
  destruct (P11 _ _ _ _ Hlink) as (Hl & _).
  unfold hdr_size, task_size in *. fold E in L6, L8. fold U in L8, L10. fold H in HM1, L10.
  rewrite Hl. unfold zlen in *. repeat split; try lia.
Qed.

Lemma slot_bounds j : (j < n)%nat -> base + U <= slot j /\ slot j + H <= base + sz /\
  base + E + zlen img <= slot j /\ base + 504 <= slot j.
Proof.
  intros Hj. pose proof nums as (? & ? & ? & ? & ? & ? & ?). unfold slot.
  pose proof (zlen_nonneg img).
  assert (Z.of_nat j * H + H <= H * Z.of_nat n) by nia. nia.
Qed.
Lemma slot_disjoint i j : i <> j -> slot i + H <= slot j \/ slot j + H <= slot i.
Proof.
  intros Hij. pose proof nums as (? & _). unfold slot.
  destruct (Nat.lt_ge_cases i j); [left|right]; nia.
Qed.

Lemma entry_outside j d k : replaces infos j d -> 0 <= k < H -> ~ in_region (d + k).
Proof.
  intros Hr Hk. destruct Hent as [H1 _]. specialize (H1 j d Hr).
  unfold in_region, in_range. lia.
Qed.
Lemma entry_is_entry j d k : replaces infos j d -> 0 <= k < H -> at_entry infos H (d + k).
Proof. intros Hr Hk. exists j, d. split; auto. unfold in_range. lia. Qed.

(** Effects of writing inside slot [k], and inside entry [k]. *)
Section SlotWrite.
  Variables (m m' : mem) (k : nat).
  Hypothesis Hk : (k < n)%nat.
  Hypothesis Hm' : forall x, ~ in_range x (slot k) H -> m' x = m x.

  Lemma sw_frame : frame m -> frame m'.
  Proof.
    intros Hf x Hx Hx2. rewrite Hm'; [apply Hf; auto|].
    pose proof (slot_bounds k Hk). unfold in_region, in_range in *.
    pose proof nums. lia.
  Qed.
  Lemma sw_orig j d : replaces infos j d -> orig m d -> orig m' d.
  Proof.
    intros Hr Ho q Hq. rewrite Hm'; [apply Ho; auto|].
    pose proof (entry_outside j d q Hr Hq). pose proof (slot_bounds k Hk). pose proof nums.
    unfold in_region, in_range in *. lia.
  Qed.
  Lemma sw_saved j d : replaces infos j d -> j <> k -> saved m j d -> saved m' j d.
  Proof.
    intros Hr Hjk Hs q Hq. rewrite !Hm'; [apply Hs; auto| |].
    - pose proof (entry_outside j d q Hr Hq). pose proof (slot_bounds k Hk). pose proof nums.
      unfold in_region, in_range in *. lia.
    - pose proof (slot_disjoint j k Hjk). unfold in_range. lia.
  Qed.
  Lemma sw_written_code j d : replaces infos j d -> code_at m j d -> code_at m' j d.
  Proof.
    intros Hr (c & Hc & Hw). exists c. split; auto. intros q Hq.
    assert (HL : zlen c = H) by (eapply (mk_code _ _ _ HM); eauto).
    rewrite Hm'; [apply Hw; auto|].
    pose proof (entry_outside j d q Hr ltac:(lia)). pose proof (slot_bounds k Hk). pose proof nums.
    unfold in_region, in_range in *. lia.
  Qed.
  Lemma sw_region : region_written m -> region_written m'.
  Proof.
    pose proof nums as (N1 & N2 & N3 & N4 & N5 & N6 & N7 & N8 & _).
    pose proof (slot_bounds k Hk).
    intros [R1 R2]. split; intros q Hq; (rewrite Hm'; [auto|]); unfold in_range.
    - unfold zlen in Hq. rewrite N8 in Hq. pose proof (zlen_nonneg img). lia.
    - lia.
  Qed.
End SlotWrite.

Section EntryWrite.
  Variables (m m' : mem) (k : nat) (dk : Z).
  Hypothesis Hk : replaces infos k dk.
  Hypothesis Hm' : forall x, ~ in_range x dk H -> m' x = m x.
  Hypothesis Hmap' : forall x, m x <> None -> m' x <> None.

  Lemma ew_frame : frame m -> frame m'.
  Proof.
    intros Hf x Hx Hx2. rewrite Hm'; [apply Hf; auto|].
    intros C. apply Hx2. exists k, dk. auto.
  Qed.
  Lemma ew_orig j d : replaces infos j d -> j <> k -> orig m d -> orig m' d.
  Proof.
    intros Hr Hjk Ho q Hq. rewrite Hm'; [apply Ho; auto|].
    destruct Hent as [_ Hd]. specialize (Hd j k d dk Hr Hk Hjk). unfold in_range. lia.
  Qed.
  Lemma ew_outside x : in_region x -> m' x = m x.
  Proof.
    intros Hx. apply Hm'. intros C. unfold in_range in C.
    apply (entry_outside k dk (x - dk) Hk); [lia|]. replace (dk + (x - dk)) with x by lia. exact Hx.
  Qed.
  Lemma ew_saved j d : (j < n)%nat -> saved m j d -> saved m' j d.
  Proof.
    intros Hj Hs q Hq. rewrite ew_outside.
    - destruct (Hs q Hq) as (S1 & S2 & S3). auto.
    - pose proof (slot_bounds j Hj). pose proof nums.
      unfold in_region, in_range. lia.
  Qed.
  Lemma ew_written_code j d : replaces infos j d -> j <> k -> code_at m j d -> code_at m' j d.
  Proof.
    intros Hr Hjk (c & Hc & Hw). exists c. split; auto. intros q Hq.
    assert (HL : zlen c = H) by (eapply (mk_code _ _ _ HM); eauto).
    rewrite Hm'; [apply Hw; auto|].
    destruct Hent as [_ Hd]. specialize (Hd j k d dk Hr Hk Hjk). unfold in_range. lia.
  Qed.
  Lemma ew_region : region_written m -> region_written m'.
  Proof.
    pose proof nums as (N1 & N2 & N3 & N4 & N5 & N6 & N7 & N8 & _).
    intros [R1 R2]. split; intros q Hq; (rewrite ew_outside; [auto|]); unfold in_region, in_range.
    - unfold zlen in Hq. rewrite N8 in Hq. pose proof (zlen_nonneg img). nia.
    - nia.
  Qed.
End EntryWrite.

(** *** The loop over the hunks. *)
Definition stage (k : nat) (o : obj) (s : st) : Prop :=
  o_kpta o = base /\ o_hdr o = Some h' /\
  exists l, o_info o = Some l /\ same_infos l /\
    mx (fun m x => frame m /\ mapped m base sz /\ region_written m /\ hunks_at k m l /\
                   x base = false) s.

(** What holds when patching stops with an error after the region was mapped. *)
Definition err_inv (o : obj) (s : st) : Prop :=
  o_kpta o = base /\ o_hdr o = Some h' /\
  exists l, o_info o = Some l /\ same_infos l /\
    mx (fun m x => frame m /\ mapped m base sz /\ recoverable m l /\
                   (x base = true -> region_written m /\ all_saved m /\
                     forall j d, replaces infos j d -> is_applied (nth j l zinfo) = true)) s.
(** ... or when the tool dies. *)
Definition die_inv (s : st) : Prop :=
  mx (fun m x => frame m /\ (x base = true -> mapped m base sz /\ region_written m /\ all_saved m)) s.

Lemma hunks_recoverable k m l : hunks_at k m l -> recoverable m l.
Proof.
  intros Hh j d Hr. specialize (Hh j d Hr). destruct Hh as [H1 H2].
  destruct (Nat.lt_ge_cases j k) as [C|C]; [left|right]; [specialize (H1 C)|specialize (H2 C)]; tauto.
Qed.

Lemma stage_err k o s : stage k o s -> err_inv o s.
Proof.
  intros (H1 & H2 & l & H3 & H4 & H5 & H6 & H7 & H8 & H9).
  unfold err_inv. splits; auto. exists l. splits; auto.
  - now apply hunks_recoverable with k.
  - congruence.
Qed.

Lemma same_infos_new l j : same_infos l -> is_new_func (nth j l zinfo) = is_new_func (nth j infos zinfo)
  /\ daddr (nth j l zinfo) = daddr (nth j infos zinfo) /\ saddr (nth j l zinfo) = saddr (nth j infos zinfo).
Proof. intros [_ Hs]. destruct (Hs j) as [->| ->]; auto. Qed.

Lemma same_infos_update l k : same_infos l -> (k < n)%nat -> same_infos (update l k mark_applied).
Proof.
  intros [HL Hs] Hk. split; [rewrite update_length; exact HL|].
  intros j. destruct (Nat.eq_dec j k) as [->|C].
  - rewrite nth_update_same by lia. right. destruct (Hs k) as [->| ->]; auto using mark_mark.
  - rewrite nth_update_other by auto. apply Hs.
Qed.

Lemma u64_slot k : (k < n)%nat ->
  u64 (base + get32 h' h_user_undo + Z.of_nat k * a_hunk A) = slot k.
Proof.
  intros Hk. fold U H. apply u64_small. pose proof (slot_bounds k Hk) as Hs.
  pose proof nums as (N1 & N2 & N3 & N4 & N5 & N6 & N7 & N8 & N9 & _).
  unfold slot in *. pose proof (zlen_nonneg img).
  change (2 ^ 64) with 18446744073709551616. change (2 ^ 47) with 140737488355328 in *. nia.
Qed.

Lemma in_range_dec x a k : in_range x a k \/ ~ in_range x a k.
Proof. unfold in_range. lia. Qed.

Lemma apply_hunk_triple k : (k < n)%nat ->
  triple (stage k) (apply_hunk A h' k) (fun _ => stage (S k)) err_inv (fun _ => die_inv).
Proof.
  intros Hk. unfold apply_hunk.
  eapply t_bind; [apply t_get|]. intros o.
  intros o1 s [-> Hst]. 
  destruct Hst as (Hkp & Hhd & l & Hl & Hsi & Hmx).
  rewrite Hl. unfold nth_info.
  destruct (same_infos_new l k Hsi) as (En & Ed & Es). rewrite En, Ed, Es.
  destruct (is_new_func (nth k infos zinfo)) eqn:Enew.
  { cbn. destruct Hmx as (F1 & F2 & F3 & F4 & F5).
    unfold stage. splits; auto. exists l. splits; auto.
    intros j d H0. specialize (F4 j d H0). split.
    - intros Hlt. destruct (Nat.eq_dec j k) as [->|C]; [|apply F4; lia].
      apply replaces_nth in H0. destruct H0. congruence.
    - intros Hge. apply F4. lia. }
  set (d := daddr (nth k infos zinfo)) in *.
  assert (Hrep : replaces infos k d) by (apply nth_replaces; auto).
  destruct (a_pre A d) eqn:Epre; cbn [negb].
  2:{ cbn. apply stage_err with k. unfold stage. splits; auto. exists l. auto. }
  rewrite Hkp, u64_slot by exact Hk.
  (* save the original code *)
  unfold obind at 1. unfold lift at 1.
  set (P := fun (m : mem) (x : Z -> bool) => frame m /\ mapped m base sz /\ region_written m /\ hunks_at k m l /\ x base = false).
  pose proof (m_copy P (slot k) d (hunk A)
    (fun m x => P m x /\ saved m k d) P) as HC.
  assert (Hstep : forall m x bs q, P m x -> mread m d (hunk A) = Some bs ->
             P (mset m (slot k) (firstn q bs)) x).
  { intros m x bs q (F1 & F2 & F3 & F4 & F5) Hrd.
    assert (Hlen : length bs = hunk A) by (eapply mread_length; eauto).
    assert (Hun : forall x0, ~ in_range x0 (slot k) H -> mset m (slot k) (firstn q bs) x0 = m x0).
    { intros x0 Hx0. apply mset_out. unfold in_range in *. unfold zlen. rewrite firstn_length.
      unfold hunk in Hlen. fold H in Hlen. pose proof nums. lia. }
    unfold P. splits; auto.
    - eapply sw_frame; eauto.
    - apply mset_mapped. exact F2.
    - eapply sw_region; eauto.
    - intros j d0 H0. specialize (F4 j d0 H0). split; intros Hj.
      + destruct F4 as [F4 _]. destruct (F4 Hj) as (G1 & G2 & G3). splits; auto.
        * apply (sw_saved m _ k Hk Hun j d0 H0); [lia|exact G1].
        * eapply sw_written_code; eauto.
      + destruct F4 as [_ F4]. destruct (F4 Hj) as (G1 & G2). splits; auto.
        eapply sw_orig; eauto. }
  specialize (HC ltac:(auto)).
  assert (HC1 : mtriple (mx P) (mem_copy (slot k) d (hunk A)) (fun _ => mx (fun m x => P m x /\ saved m k d)) (mx P) (mx P)).
  { apply HC.
    - intros m x bs HPm Hrd Hmap. split.
      + rewrite <- (firstn_all bs). eapply Hstep; eauto.
      + destruct HPm as (F1 & F2 & F3 & F4 & F5).
        apply mread_spec in Hrd. destruct Hrd as [Hlen Hrd].
        intros q Hq. unfold hunk in *. fold H in Hlen, Hrd.
        assert (Hz : zlen bs = H) by (unfold zlen; lia).
        rewrite mset_in by (unfold in_range; lia).
        destruct (F4 k d Hrep) as [_ F4k]. destruct (F4k ltac:(lia)) as [Ho _].
        specialize (Ho q Hq). specialize (Hrd (d + q) ltac:(unfold in_range; lia)).
        replace (slot k + q - slot k) with q by lia.
        replace (d + q - d) with q in Hrd by lia. assert (Hd : mset m (slot k) bs (d + q) = m (d + q)).
        { apply mset_out. pose proof (entry_outside k d q Hrep Hq). pose proof (slot_bounds k Hk).
          pose proof nums. unfold in_region, in_range in *. lia. }
        rewrite Hd, <- Ho, Hrd. splits; congruence.
    - intros m x bs q HPm Hrd _. eapply Hstep; eauto. }
  clear HC. specialize (HC1 s Hmx).
  destruct (mem_copy (slot k) d (hunk A) s) as [[[]| | | |] s1]; try contradiction.
  2:{ apply stage_err with k. unfold stage. splits; auto. exists l. auto. }
  2:{ destruct HC1 as (F1 & F2 & F3 & F4 & F5). split; auto. congruence. }
  destruct (a_code A d (saddr (nth k infos zinfo))) as [code|] eqn:Ecode.
  2:{ cbn. apply stage_err with k. unfold stage. splits; auto. exists l. destruct HC1. auto. }
  assert (HLc : zlen code = H) by (eapply (mk_code _ _ _ HM); eauto).
  (* write the jump *)
  assert (HW : mtriple (mx (fun m x => P m x /\ saved m k d)) (mem_write d code)
      (fun _ => mx (fun m x => frame m /\ mapped m base sz /\ region_written m /\
                               hunks_at (S k) m (update l k mark_applied) /\ x base = false))
      (mx (fun m x => frame m /\ mapped m base sz /\ recoverable m (update l k mark_applied) /\ x base = false))
      (mx (fun m x => frame m /\ mapped m base sz /\ recoverable m (update l k mark_applied) /\ x base = false))).
  { apply m_write.
    - intros m x ((F1 & F2 & F3 & F4 & F5) & Fs) _.
      assert (Hun : forall x0, ~ in_range x0 d H -> mset m d code x0 = m x0)
        by (intros; apply mset_out; rewrite HLc; auto).
      assert (Hmp : forall x0, m x0 <> None -> mset m d code x0 <> None)
        by (intros x0 Hx0; unfold mset; destruct (_ && _); [discriminate|exact Hx0]).
      splits; auto.
      + eapply ew_frame; eauto.
      + apply mset_mapped; auto.
      + eapply ew_region; eauto.
      + intros j d0 H0. pose proof (replaces_bound _ _ H0) as Hb. specialize (F4 j d0 H0).
        split; intros Hj.
        * destruct (Nat.eq_dec j k) as [->|C].
          -- rewrite nth_update_same by (destruct Hsi; lia).
             apply replaces_nth in H0. destruct H0 as [_ <-]. fold d. splits.
             ++ eapply ew_saved; eauto.
             ++ apply mark_is_applied.
             ++ exists code. split; auto.
                intros q Hq. rewrite mset_in by (unfold in_range; lia). f_equal. f_equal. lia.
          -- rewrite nth_update_other by auto. destruct F4 as [F4 _].
             destruct (F4 ltac:(lia)) as (G1 & G2 & G3). splits; auto.
             ++ exact (ew_saved m _ k d Hrep Hun Hmp j d0 Hb G1).
             ++ exact (ew_written_code m _ k d Hrep Hun Hmp j d0 H0 C G3).
        * rewrite nth_update_other by lia. destruct F4 as [_ F4].
          destruct (F4 ltac:(lia)) as (G1 & G2). splits; auto.
          apply (ew_orig m _ k d Hrep Hun Hmp j d0 H0); [lia|exact G1].
    - intros m x q ((F1 & F2 & F3 & F4 & F5) & Fs) _.
      assert (Hun : forall x0, ~ in_range x0 d H -> mset m d (firstn q code) x0 = m x0).
      { intros x0 Hx0. apply mset_out. unfold in_range, zlen in *. rewrite firstn_length. lia. }
      assert (Hmp : forall x0, m x0 <> None -> mset m d (firstn q code) x0 <> None)
        by (intros x0 Hx0; unfold mset; destruct (_ && _); [discriminate|exact Hx0]).
      splits; auto.
      + eapply ew_frame; eauto.
      + apply mset_mapped; auto.
      + intros j d0 H0. pose proof (replaces_bound _ _ H0) as Hb. specialize (F4 j d0 H0).
        destruct (Nat.eq_dec j k) as [->|C].
        * left. rewrite nth_update_same by (destruct Hsi; lia). split; [apply mark_is_applied|].
          apply replaces_nth in H0. destruct H0 as [_ <-]. eapply ew_saved; eauto.
        * rewrite nth_update_other by auto. destruct (Nat.lt_ge_cases j k).
          -- left. split; [apply F4; lia|]. apply (ew_saved m _ k d Hrep Hun Hmp j d0 Hb). apply F4. lia.
          -- right. split; [apply F4; lia|]. apply (ew_orig m _ k d Hrep Hun Hmp j d0 H0 C). apply F4. lia. }
  specialize (HW s1 HC1).
  destruct (mem_write d code s1) as [[[]| | | |] s2]; try contradiction.
  - cbn. destruct HW as (F1 & F2 & F3 & F4 & F5).
    unfold stage. splits; auto. exists (update l k mark_applied). splits; auto.
    apply same_infos_update; auto.
  - cbn. destruct HW as (F1 & F2 & F3 & F4).
    unfold err_inv. splits; auto. exists (update l k mark_applied). splits; auto; try congruence.
    apply same_infos_update; auto.
  - destruct HW as (F1 & F2 & F3 & F4). split; auto. congruence.
Qed.

Lemma apply_hunks_triple t : forall k, (k + t = n)%nat ->
  triple (stage k) (apply_hunks A h' k t) (fun _ => stage n) err_inv (fun _ => die_inv).
Proof.
  induction t as [|t IH]; intros k Hk; cbn [apply_hunks].
  - replace k with n by lia. intros o s Hs. exact Hs.
  - eapply t_bind; [apply apply_hunk_triple; lia|]. intros u. apply IH. lia.
Qed.


(** *** Writing the saved code back.  [sel j]: entry [j] is to be restored; [K] any
    fact about the region that the caller wants kept. *)
Section Restore.
  Variable sel : nat -> bool.
  Variable K : mem -> Prop.
  Hypothesis HK : forall m m', (forall x, in_region x -> m' x = m x) -> K m -> K m'.

  Definition restoring (q : nat) (m : mem) : Prop :=
    frame m /\ mapped m base sz /\ K m /\
    (forall j d, replaces infos j d -> sel j = true -> saved m j d) /\
    (forall j d, replaces infos j d -> sel j = true -> (j < q)%nat -> orig m d) /\
    (forall j d, replaces infos j d -> sel j = false -> orig m d).

  Lemma restoring_weaken q m : restoring q m -> restoring 0 m.
  Proof. intros (R1 & R2 & R3 & R4 & R5 & R6). unfold restoring. splits; auto. lia. Qed.

  Lemma restoring_write j d m bs k : replaces infos j d -> sel j = true -> restoring j m ->
    mread m (slot j) (hunk A) = Some bs ->
    restoring j (mset m d (firstn k bs)).
  Proof.
    intros Hr Hsel (R1 & R2 & R3 & R4 & R5 & R6) Hrd.
    assert (Hlen : length bs = hunk A) by (eapply mread_length; eauto).
    pose proof nums as (N1 & _).
    assert (Hun : forall x0, ~ in_range x0 d H -> mset m d (firstn k bs) x0 = m x0).
    { intros x0 Hx0. apply mset_out. unfold in_range, zlen in *. rewrite firstn_length.
      unfold hunk in Hlen. fold H in Hlen. lia. }
    assert (Hmp : forall x0, m x0 <> None -> mset m d (firstn k bs) x0 <> None)
        by (intros x0 Hx0; unfold mset; destruct (_ && _); [discriminate|exact Hx0]).
    unfold restoring. splits.
    - eapply ew_frame; eauto.
    - apply mset_mapped; auto.
    - apply (HK m); auto. intros x Hx. apply (ew_outside m _ j d Hr Hun Hmp x Hx).
    - intros j' d' Hr' Hs'. apply (ew_saved m _ j d Hr Hun Hmp j' d' (replaces_bound _ _ Hr')).
      apply R4; auto.
    - intros j' d' Hr' Hs' Hlt. apply (ew_orig m _ j d Hr Hun Hmp j' d' Hr'); [lia|]. eapply R5; eauto.
    - intros j' d' Hr' Hs'. apply (ew_orig m _ j d Hr Hun Hmp j' d' Hr'); [congruence|]. eapply R6; eauto.
  Qed.

  Lemma restoring_done j d m bs : replaces infos j d -> sel j = true -> restoring j m ->
    mread m (slot j) (hunk A) = Some bs ->
    restoring (S j) (mset m d bs).
  Proof.
    intros Hr Hsel HR Hrd.
    pose proof (restoring_write j d m bs (length bs) Hr Hsel HR Hrd) as HW.
    rewrite firstn_all in HW.
    destruct HW as (W1 & W2 & W3 & W4 & W5 & W6). unfold restoring. splits; auto.
    intros j' d' Hr' Hs' Hlt. destruct (Nat.eq_dec j' j) as [->|C]; [|apply (W5 j'); auto; lia].
    assert (d' = d) as -> by (apply replaces_nth in Hr, Hr'; intuition congruence).
    destruct HR as (_ & _ & _ & R4 & _).
    apply mread_spec in Hrd. destruct Hrd as [Hlen Hrd]. pose proof nums as (N1 & _).
    unfold hunk in *. fold H in Hlen, Hrd.
    intros q Hq. rewrite mset_in by (unfold in_range, zlen; lia).
    destruct (R4 _ _ Hr Hsel q Hq) as (S1 & _).
    specialize (Hrd (slot j + q) ltac:(unfold in_range; lia)). rewrite <- S1, Hrd.
    f_equal. f_equal. lia.
  Qed.

  Definition tab_ok (check : bool) (q : nat) (l : list info) : Prop :=
    (q + length l = n)%nat /\
    forall i, (i < length l)%nat ->
      is_new_func (nth i l zinfo) = is_new_func (nth (q + i) infos zinfo) /\
      (is_new_func (nth (q + i) infos zinfo) = false ->
       daddr (nth i l zinfo) = daddr (nth (q + i) infos zinfo) /\
       check && negb (is_applied (nth i l zinfo)) = negb (sel (q + i))).

  Lemma tab_ok_tail check q i l : tab_ok check q (i :: l) -> tab_ok check (S q) l.
  Proof.
    intros [H1 H2]. cbn [length] in *. split; [lia|]. intros j Hj.
    specialize (H2 (S j) ltac:(lia)). cbn [nth] in H2.
    replace (q + S j)%nat with (S q + j)%nat in H2 by lia. exact H2.
  Qed.

  Lemma restoring_skip q m : restoring q m ->
    (is_new_func (nth q infos zinfo) = true \/ sel q = false) -> restoring (S q) m.
  Proof.
    intros (R1 & R2 & R3 & R4 & R5 & R6) Hc. unfold restoring. splits; auto.
    intros j d Hr Hs Hlt. destruct (Nat.eq_dec j q) as [->|C]; [|apply (R5 j); auto; lia].
    exfalso. apply replaces_nth in Hr. destruct Hc; intuition congruence.
  Qed.

  Lemma restore_triple check X : forall l q, tab_ok check q l ->
    mtriple (mx (fun m x => restoring q m /\ X x)) (restore_hunks A check (base + U) q l)
      (fun _ => mx (fun m x => restoring n m /\ X x))
      (mx (fun m x => restoring 0 m /\ X x)) (mx (fun m x => restoring 0 m /\ X x)).
  Proof.
    induction l as [|i l IH]; intros q HT; cbn [restore_hunks].
    - destruct HT as [HT _]. cbn in HT. replace q with n by lia. intros s Hs. exact Hs.
    - pose proof (tab_ok_tail _ _ _ _ HT) as HT'. destruct HT as [HT1 HT2].
      specialize (HT2 0%nat ltac:(cbn; lia)). cbn [nth] in HT2.
      rewrite Nat.add_0_r in HT2. destruct HT2 as (E1 & E2).
      assert (Hq : (q < n)%nat) by (cbn [length] in HT1; lia).
      eapply m_bind with (R := fun _ => mx (fun m x => restoring (S q) m /\ X x)).
      2:{ intros _. apply IH; exact HT'. }
      rewrite E1. destruct (is_new_func (nth q infos zinfo)) eqn:En.
      { intros s [Hs HX]. split; auto. apply restoring_skip; auto. }
      destruct (E2 eq_refl) as [E3 E4]. rewrite E4.
      destruct (sel q) eqn:Es; cbn [negb].
      2:{ intros s [Hs HX]. split; auto. apply restoring_skip; auto. }
      pose proof (u64_slot q Hq) as Eu. fold U in Eu. rewrite Eu, E3.
      set (d := daddr (nth q infos zinfo)) in *.
      assert (Hr : replaces infos q d) by (apply nth_replaces; auto).
      apply m_copy.
      + intros m x [HR HX]. split; auto. eapply restoring_weaken; eauto.
      + intros m x bs [HR HX] Hrd _. split; auto. eapply restoring_done; eauto.
      + intros m x bs k [HR HX] Hrd _. split; auto. eapply restoring_weaken, restoring_write; eauto.
  Qed.

  (** With a cooperative environment nothing fails. *)
  Lemma restore_quiet check : forall l q s, tab_ok check q l -> so s = [] -> restoring q (sm s) ->
    exists s', restore_hunks A check (base + U) q l s = (Ret tt, s') /\ so s' = [].
  Proof.
    induction l as [|i l IH]; intros q s HT Hso HR; cbn [restore_hunks].
    - exists s. auto.
    - pose proof (tab_ok_tail _ _ _ _ HT) as HT'. destruct HT as [HT1 HT2].
      specialize (HT2 0%nat ltac:(cbn; lia)). cbn [nth] in HT2.
      rewrite Nat.add_0_r in HT2. destruct HT2 as (E1 & E2).
      assert (Hq : (q < n)%nat) by (cbn [length] in HT1; lia).
      unfold bind at 1.
      rewrite E1. destruct (is_new_func (nth q infos zinfo)) eqn:En.
      { unfold ret. apply IH; auto. apply restoring_skip; auto. }
      destruct (E2 eq_refl) as [E3 E4]. rewrite E4.
      destruct (sel q) eqn:Es; cbn [negb].
      2:{ unfold ret. apply IH; auto. apply restoring_skip; auto. }
      pose proof (u64_slot q Hq) as Eu. fold U in Eu. rewrite Eu, E3.
      set (d := daddr (nth q infos zinfo)) in *.
      assert (Hr : replaces infos q d) by (apply nth_replaces; auto).
      destruct HR as (R1 & R2 & R3 & R4 & R5 & R6).
      destruct (mread_some (sm s) (slot q) (hunk A)) as [bs Hbs].
      { intros x Hx. apply R2. pose proof (slot_bounds q Hq). pose proof nums.
        unfold in_range, hunk in *. fold H in Hx. lia. }
      assert (Hlen : length bs = hunk A) by (eapply mread_length; eauto).
      assert (Hmd : mapped (sm s) d (zlen bs)).
      { intros x Hx. unfold in_range, zlen in Hx. rewrite Hlen in Hx. unfold hunk in Hx. fold H in Hx.
        pose proof nums as (N1 & _). destruct (R4 q d Hr Es (x - d) ltac:(lia)) as (_ & _ & S3).
        replace (d + (x - d)) with x in S3 by lia. exact S3. }
      unfold mem_copy, bind, choice, pop. rewrite Hso. unfold mem_read, pop. rewrite Hso, Hbs.
      unfold mem_write, pop. rewrite Hso, pwrite_full by exact Hmd. rewrite Nat.eqb_refl.
      apply IH; auto. cbn [sm with_sm]. apply restoring_done; auto. unfold restoring. splits; auto.
  Qed.
End Restore.

End OnePatch.
