From Coq Require Import String.
From Verif Require Import Base BaseProofs StorageModel StorageProofs ProcModel ProcSpec ProcProofs ProcSelect.
Open Scope list_scope.

Section Ids.
Variable os0 : list pobj.
Hypothesis Fresh : fresh os0.

Lemma owns_id i j : owns os0 i j = true -> exists id, patch_id_of os0 j = Some id.
Proof.
  unfold owns, owner, patch_id_of. destruct (nth_error os0 j) as [p|]; [|discriminate].
  destruct (po_patch p); [|discriminate]. destruct (po_hdr p) as [h|]; [|discriminate]. eauto.
Qed.

Lemma ids_nodup i : forall done, NoDup (map (patch_id_of os0) (ids_of os0 i done)).
Proof.
  induction done as [|j r IH]; cbn [ids_of]; [constructor|].
  destruct (owns os0 i j) eqn:O; [|exact IH]. destruct (existsb _ _) eqn:X; [exact IH|].
  destruct (owns_id i j O) as (id & Eid).
  rewrite map_app. cbn [map]. 
  assert (N : ~ In (patch_id_of os0 j) (map (patch_id_of os0) (ids_of os0 i r))).
  { intros I. apply in_map_iff in I as (k & Ek & Ik).
    assert (C : existsb (fun k => match patch_id_of os0 k, patch_id_of os0 j with
              | Some x, Some y => list_eqb x y | _, _ => false end) (ids_of os0 i r) = true).
    { apply existsb_exists. exists k. split; [exact Ik|]. rewrite Ek, Eid. apply list_eqb_refl. }
    congruence. }
  clear X. revert N IH. generalize (map (patch_id_of os0) (ids_of os0 i r)). generalize (patch_id_of os0 j).
  intros x l N D. induction D as [|a l Na D IH]; cbn [app]; [constructor; [intros []|constructor]|].
  constructor.
  - intros I. apply in_app_iff in I as [I|[<-|[]]]; [contradiction|]. apply N. left. reflexivity.
  - apply IH. intros I. apply N. right. exact I.
Qed.

Lemma ids_all i : forall done j, In j done -> owns os0 i j = true ->
  In (patch_id_of os0 j) (map (patch_id_of os0) (ids_of os0 i done)).
Proof.
  induction done as [|k r IH]; intros j I O; [destruct I|]. cbn [ids_of].
  destruct I as [->|I].
  - rewrite O. destruct (existsb _ _) eqn:X.
    + apply existsb_exists in X as (m & Im & Em). destruct (owns_id i j O) as (id & Eid).
      rewrite Eid in *. destruct (patch_id_of os0 m) as [x|] eqn:Ex; [|discriminate].
      apply list_eqb_eq in Em. subst x. rewrite <- Ex. apply in_map. exact Im.
    + apply in_map. apply in_or_app. right. left. reflexivity.
  - specialize (IH j I O). destruct (owns os0 i k); [|exact IH]. destruct (existsb _ _); [exact IH|].
    rewrite map_app. apply in_or_app. left. exact IH.
Qed.

Let js := seq 0 (length os0).

Lemma info_winv : exists os' n, associate None os0 = Some (os', n) /\ winv os0 None (rev js) os'.
Proof.
  destruct (assoc_spec os0 Fresh None js [] os0 0 0 (winv_start os0 Fresh None)) as (os' & E & W).
  exists os'. eexists. unfold associate. fold js. rewrite E. rewrite app_nil_r in W. split; [reflexivity|exact W].
Qed.

(** What is printed for one object. *)
Lemma object_info_spec os' i o0 o : winv os0 None (rev js) os' -> nth_error os0 i = Some o0 ->
  nth_error os' i = Some o ->
  object_info os' o <> None /\
  forall n b ids, object_info os' o = Some (Some (n, b, ids)) <->
    is_elf_at os0 i b o0 /\ po_name o0 = n /\ is_kernel_name n = false /\
    ids = map (patch_id_of os0) (ids_of os0 i (rev js)) /\ ids <> [].
Proof.
  intros W E0 E. destruct (proj2 W i o0 o E0 E) as (S & _ & A & _).
  destruct S as (S1 & S2 & S3 & S4 & S5 & S6 & S7).
  assert (Ids : map (patch_id_of os') (po_applied o) = map (patch_id_of os0) (ids_of os0 i (rev js))).
  { rewrite A. apply map_ext_in. intros j Ij. apply (patch_id_same os0 None (rev js)); [exact W|].
    destruct (ids_of_owned os0 i _ j Ij) as [O _]. exact (owns_patch os0 i j O). }
  unfold object_info, get_buildid. rewrite S3, S5, S7.
  assert (Bid : po_applied o <> [] -> exists b, po_bid o0 = Some b /\ po_elf o0 = true).
  { intros N. rewrite A in N. destruct (ids_of os0 i (rev js)) as [|j l] eqn:El; [congruence|].
    destruct (ids_of_owned os0 i (rev js) j) as [O _]; [rewrite El; left; reflexivity|].
    unfold owns in O. destruct (owner os0 j) as [[[i' a] h]|] eqn:Ow; [|discriminate].
    apply Nat.eqb_eq in O. subst i'. destruct (owner_spec os0 j i a h Ow) as (_ & o1 & X1 & X2 & X3).
    rewrite E0 in X1. apply some_inj in X1. subst o1. eauto. }
  destruct (po_elf o0) eqn:El; cbn [negb orb].
  2:{ split; [discriminate|]. intros n b ids. split; [discriminate|]. intros ((_ & C & _) & _). congruence. }
  destruct (is_kernel_name (po_name o0)) eqn:K.
  { split; [discriminate|]. intros n b ids. split; [discriminate|]. intros (_ & <- & C & _). congruence. }
  destruct (po_applied o) as [|j l] eqn:Ap.
  { split; [discriminate|]. intros n b ids. split; [discriminate|]. intros (_ & _ & _ & I & N).
    rewrite I, <- Ids in N. cbn in N. congruence. }
  destruct (Bid ltac:(discriminate)) as (b0 & B0 & _). rewrite B0. split; [discriminate|].
  intros n b ids. rewrite Ids. split.
  - intros H. apply some_inj, some_inj in H. 
    assert (H1 := f_equal (fun t => fst (fst t)) H). assert (H2 := f_equal (fun t => snd (fst t)) H).
    assert (H3 := f_equal snd H). cbn [fst snd] in H1, H2, H3. subst n b ids.
    split; [repeat split; assumption|]. split; [reflexivity|]. split; [exact K|]. split; [reflexivity|].
    rewrite <- Ids. discriminate.
  - intros ((_ & _ & X) & <- & _ & -> & _). congruence.
Qed.

Lemma info_loop_spec all : forall os, (forall o, In o os -> object_info all o <> None) ->
  fst (info_loop all os) = 0 /\
  forall x, In x (snd (info_loop all os)) <-> exists o, In o os /\ object_info all o = Some (Some x).
Proof.
  induction os as [|o r IH]; intros H; cbn [info_loop].
  - split; [reflexivity|]. intros x. split; [intros []|intros (o & [] & _)].
  - destruct (IH (fun o' I => H o' (or_intror I))) as [I1 I2].
    destruct (object_info all o) as [[y|]|] eqn:E.
    + destruct (info_loop all r) as [rv l]. cbn [fst snd] in *. split; [exact I1|]. intros x. split.
      * intros [<-|I]; [exists o; split; [left; reflexivity|exact E]|].
        apply I2 in I as (o' & Io & Eo). exists o'. split; [right; exact Io|exact Eo].
      * intros (o' & [<-|Io] & Eo); [left; congruence|]. right. apply I2. eauto.
    + split; [exact I1|]. intros x. rewrite I2. split.
      * intros (o' & Io & Eo). exists o'. split; [right; exact Io|exact Eo].
      * intros (o' & [<-|Io] & Eo); [congruence|]. eauto.
    + exfalso. exact (H o (or_introl eq_refl) E).
Qed.

Lemma info_spec : fst (info os0) = 0 /\
  forall n b ids, In (n, b, ids) (snd (info os0)) <->
    exists i o0, is_elf_at os0 i b o0 /\ po_name o0 = n /\ is_kernel_name n = false /\
    ids = map (patch_id_of os0) (ids_of os0 i (rev js)) /\ ids <> [].
Proof.
  destruct info_winv as (os' & m & E & W). unfold info. rewrite E.
  assert (Pos : forall o, In o os' -> exists i o0, nth_error os0 i = Some o0 /\ nth_error os' i = Some o).
  { intros o I. apply In_nth_error in I as (i & Ei). exists i.
    destruct (nth_error os0 i) as [o0|] eqn:E0; [eauto|].
    pose proof (winv_nth os0 None (rev js) os' i W) as N. rewrite E0 in N. congruence. }
  destruct (info_loop_spec os' os') as [I1 I2].
  { intros o I. destruct (Pos o I) as (i & o0 & E0 & Eo). apply (object_info_spec os' i o0 o W E0 Eo). }
  split; [exact I1|]. intros n b ids. rewrite I2. split.
  - intros (o & Io & Eo). destruct (Pos o Io) as (i & o0 & E0 & Ei).
    apply (object_info_spec os' i o0 o W E0 Ei) in Eo. exists i, o0. exact Eo.
  - intros (i & o0 & H). pose proof H as ((E0 & _) & _).
    pose proof (winv_nth os0 None (rev js) os' i W) as N. rewrite E0 in N. destruct N as (o & Ei & _).
    exists o. split; [exact (nth_error_In _ _ Ei)|]. apply (object_info_spec os' i o0 o W E0 Ei). exact H.
Qed.
End Ids.

Lemma patch_id_spec os j b id a h : is_patch_at os j b id a h -> patch_id_of os j = Some id.
Proof. intros (p & v & r & E & _ & H & _ & _ & _ & I). unfold patch_id_of. rewrite E, H, I. reflexivity. Qed.

Lemma info_sound os n b ids : fresh os -> In (n, b, ids) (snd (info os)) ->
  (exists i o, is_elf_at os i b o /\ po_name o = n) /\ NoDup ids /\ ids <> [] /\
  forall x, In x ids -> exists id j a h, x = Some id /\ is_patch_at os j b id a h.
Proof.
  intros Fr H. apply (proj2 (info_spec os Fr)) in H as (i & o & Eo & Nm & K & I & Ne).
  split; [eauto|]. split; [rewrite I; apply ids_nodup|]. split; [exact Ne|].
  intros x Ix. rewrite I in Ix. apply in_map_iff in Ix as (j & <- & Ij).
  destruct (ids_of_owned os i _ j Ij) as [O _]. unfold owns in O.
  destruct (owner os j) as [[[i' a] h]|] eqn:Ow; [|discriminate]. apply Nat.eqb_eq in O. subst i'.
  destruct (owner_spec os j i a h Ow) as ((b1 & id & Pj) & (o1 & Eo1)).
  assert (hdr_bid h = b).
  { destruct Eo as (Q1 & _ & Q3). destruct Eo1 as (Q4 & _ & Q5). rewrite Q1 in Q4. apply some_inj in Q4. congruence. }
  assert (b1 = hdr_bid h) by (destruct Pj as (p & v & r & _ & _ & _ & _ & _ & Q & _); congruence).
  exists id, j, a, h. split; [exact (patch_id_spec _ _ _ _ _ _ Pj)|congruence].
Qed.

Lemma info_complete os i b o j id a h : fresh os -> distinct_bids os -> is_elf_at os i b o ->
  is_kernel_name (po_name o) = false -> is_patch_at os j b id a h ->
  exists ids, In (po_name o, b, ids) (snd (info os)) /\ In (Some id) ids.
Proof.
  intros Fr Db Eo K Pj. destruct (owner_exists os j b id a h i o Pj Eo) as (i' & O & o' & Eo').
  assert (i' = i) by exact (Db _ _ _ _ _ Eo' Eo). subst i'.
  assert (Oi : owns os i j = true) by (unfold owns; rewrite O; apply Nat.eqb_refl).
  assert (Ij : In j (rev (seq 0 (length os)))).
  { apply in_js. destruct Pj as (p & v & r & Q & _). apply nth_error_Some. congruence. }
  pose proof (ids_all os i _ j Ij Oi) as A. rewrite (patch_id_spec _ _ _ _ _ _ Pj) in A.
  eexists. split; [|exact A]. apply (proj2 (info_spec os Fr)). exists i, o.
  split; [exact Eo|]. split; [reflexivity|]. split; [exact K|]. split; [reflexivity|].
  intros C. rewrite C in A. exact A.
Qed.
