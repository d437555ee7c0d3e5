(** Proofs about patches of several files of one process. *)
From Coq Require Import Permutation.
From Verif Require Import Base BaseProofs RemoteModel JumpModel EngineModel EngineSpec LayoutProofs
  EngineProofs ApplyProofs PeekProofs UnpatchProofs RollbackProofs EngineFinal ManySpec.

(** ** What stays executable.  [keeps R m]: outside [R], what was executable is. *)
Definition keeps {T} (R : Z -> Prop) (m : M T) : Prop :=
  forall s, forall x, ~ R x -> sx s x = true -> sx (snd (m s)) x = true.
Definition okeeps {T} (R : Z -> Prop) (m : OM T) : Prop :=
  forall o s, forall x, ~ R x -> sx s x = true -> sx (snd (m o s)) x = true.
Section Keeps.
Variable R : Z -> Prop.
Lemma k_bind {T U} (m : M T) (f : T -> M U) : keeps R m -> (forall a, keeps R (f a)) -> keeps R (bind m f).
Proof.
  intros H1 H2 s x Hx Hs. unfold bind. specialize (H1 s x Hx Hs). destruct (m s) as [[a| | | |] s']; cbn [snd] in *; auto.
  now apply H2.
Qed.
Lemma k_obind {T U} (m : OM T) (f : T -> OM U) : okeeps R m -> (forall a, okeeps R (f a)) -> okeeps R (obind m f).
Proof.
  intros H1 H2 o s x Hx Hs. unfold obind. specialize (H1 o s x Hx Hs). destruct (m o s) as [[[a| | | |] o'] s']; cbn [snd] in *; auto.
  now apply H2.
Qed.
Lemma k_lift {T} (m : M T) : keeps R m -> okeeps R (lift m).
Proof. intros H o s x Hx Hs. unfold lift. specialize (H s x Hx Hs). now destruct (m s). Qed.
Lemma k_oput o : okeeps R (oput o).
Proof. now intros o' s x Hx Hs. Qed.
Lemma k_oret {T} (a : T) : okeeps R (oret a).
Proof. now intros o' s x Hx Hs. Qed.
Lemma k_ofail {T} : okeeps R (@ofail T).
Proof. now intros o' s x Hx Hs. Qed.
Lemma k_pop s x : sx (snd (pop s)) x = sx s x.
Proof. now destruct (pop_mx s) as [_ ->]. Qed.
Lemma k_choice : keeps R choice.
Proof. intros s x Hx Hs. unfold choice. pose proof (k_pop s x) as E. destruct (pop s) as [[| |] s']; cbn [snd] in *; congruence. Qed.
Lemma k_read a n : keeps R (mem_read a n).
Proof.
  intros s x Hx Hs. unfold mem_read. pose proof (k_pop s x) as E. destruct (pop s) as [[| |] s']; cbn [snd] in *; try congruence.
  destruct (mread (sm s') a n); cbn [snd]; congruence.
Qed.
Lemma k_write a bs : keeps R (mem_write a bs).
Proof.
  intros s x Hx Hs. unfold mem_write. pose proof (k_pop s x) as E. destruct (pop s) as [[| |] s']; cbn [snd] in *.
  - destruct (pwrite (sm s') a bs). cbn. congruence.
  - cbn. congruence.
  - cbn. congruence.
Qed.
Lemma k_copy d a n : keeps R (mem_copy d a n).
Proof. unfold mem_copy. apply k_bind; [apply k_choice|]. intros _. apply k_bind; [apply k_read|]. intros bs. apply k_write. Qed.
Lemma k_mprotect pg a n : keeps R (mprotect_rx_remote pg a n).
Proof.
  intros s x Hx Hs. unfold mprotect_rx_remote. pose proof (k_pop s x) as E. destruct (pop s) as [an s']. cbn [snd] in E.
  set (done := with_map _ _ _). assert (D : sx done x = true) by (cbn; destruct (_ && _); congruence).
  destruct (negb _); cbn [snd]; [congruence|]. destruct an as [|[|]|[|]]; cbn [snd]; congruence.
Qed.
Lemma k_mmap pg a n : (forall x, in_range x a (round_up n pg) -> R x) -> keeps R (mmap_remote pg a n).
Proof.
  intros HR s x Hx Hs. unfold mmap_remote. pose proof (k_pop s x) as E. destruct (pop s) as [an s']. cbn [snd] in E.
  set (done := with_map _ _ _). assert (D : sx done x = true).
  { cbn. destruct ((a <=? x) && (x <? a + round_up n pg)) eqn:B; [|congruence]. exfalso. apply Hx, HR. unfold in_range. lia. }
  destruct (negb _); cbn [snd]; [congruence|]. destruct an as [|[|]|[|]]; cbn [snd]; congruence.
Qed.
Lemma k_hunk A h n : okeeps R (apply_hunk A h n).
Proof.
  unfold apply_hunk. apply k_obind; [now intros o s x|]. intros o. destruct (o_info o) as [l|]; [|apply k_ofail].
  destruct (is_new_func _); [apply k_oret|]. destruct (negb _); [apply k_ofail|].
  apply k_obind; [apply k_lift, k_copy|]. intros _. destruct (a_code A _ _) as [code|]; [|apply k_ofail].
  intros o' s x Hx Hs. pose proof (k_write (daddr (nth_info l n)) code s x Hx Hs) as K.
  destruct (mem_write _ _ s) as [[| | | |] s']; exact K.
Qed.
Lemma k_hunks A h : forall t n, okeeps R (apply_hunks A h n t).
Proof. induction t as [|t IH]; intros n; cbn [apply_hunks]; [apply k_oret|]. apply k_obind; [apply k_hunk|]. intros _. apply IH. Qed.
End Keeps.

Lemma k_alloc (R : Z -> Prop) {T} pg o sz (f : OM T) : (forall x, in_range x (o_find o sz) (round_up sz pg) -> R x) -> okeeps R f ->
  okeeps R (oput o ~;; allocate_patch pg sz ~;; f).
Proof.
  intros HR Hf o0 s x Hx Hs. unfold obind at 1, oput at 1.
  assert (G : sx (snd (allocate_patch pg sz o s)) x = true).
  { unfold allocate_patch. unfold obind at 1, oget at 1. destruct (o_find o sz =? 0); [exact Hs|].
    revert o s Hs HR. intros o s Hs HR.
    assert (K : okeeps R (a <~ lift (mmap_remote pg (o_find o sz) sz) ;; oput (with_kpta o a) ~;; lift choice)).
    { apply k_obind; [apply k_lift, k_mmap, HR|]. intros a. apply k_obind; [apply k_oput|]. intros _. apply k_lift, k_choice. }
    exact (K o s x Hx Hs). }
  unfold obind at 1. destruct (allocate_patch pg sz o s) as [[[a| | | |] o1] s1]; cbn [snd] in *; auto.
Qed.
Lemma layout_region A jent pg p off n : layout A jent pg (p_hdr p) (p_undef p) off n = (region_hdr A jent pg p off n, region_size A jent pg p off n).
Proof. unfold region_hdr, region_size. destruct (layout _ _ _ _ _ _ _); reflexivity. Qed.
(** The whole of it. *)
Lemma k_apply (R : Z -> Prop) A jent pg o s x :
  (forall p off n, o_patch o = Some p -> p_info p = Some (off, n) ->
     forall y, in_range y (o_find o (region_size A jent pg p off n)) (round_up (region_size A jent pg p off n) pg) -> R y) ->
  ~ R x -> sx s x = true -> sx (snd (object_apply_patch A jent pg o s)) x = true.
Proof.
  intros HR Hx Hs. unfold object_apply_patch, object_apply_patch_with. unfold obind at 1, oget at 1.
  destruct (o_patch o) as [p|]; [|exact Hs]. destruct (o_is_patch o); [exact Hs|].
  match goal with |- sx (snd (?m o s)) x = true => enough (K : okeeps R m) by exact (K o s x Hx Hs) end.
  apply k_obind; [apply k_lift, k_choice|intros _]. apply k_obind; [apply k_oput|intros _].
  apply k_obind; [destruct (applied_by_id _ _); [apply k_ofail|apply k_oret]|intros _].
  destruct (p_info p) as [[off n]|] eqn:Ei; [|apply k_ofail].
  apply k_obind; [apply k_oput|intros _].
  apply k_obind; [destruct (p_undef p =? 0); [apply k_oret|apply k_lift, k_choice]|intros _].
  specialize (HR p off n eq_refl Ei).
  rewrite layout_region. set (h := region_hdr A jent pg p off n). clearbody h. revert HR.
  generalize (region_size A jent pg p off n). intros sz HR.
  apply k_alloc; [exact HR|].
  apply k_obind; [now intros ? ? ?|]. intros o6. destruct (p_link p (o_kpta o6) h) as [[image jt]|]; [|apply k_ofail].
  apply k_obind; [apply k_oput|intros _]. apply k_obind; [apply k_lift, k_write|intros _].
  apply k_obind; [apply k_lift, k_write|intros _]. apply k_obind; [destruct (p_undef p =? 0); [apply k_oret|apply k_lift, k_write]|intros _].
  apply k_obind; [apply k_lift, k_choice|intros _]. apply k_obind; [apply k_hunks|intros _].
  apply k_obind; [apply k_lift, k_mprotect|intros _]. apply k_oret.
Qed.

Section One.
Variable A : arch.
Variables jent pg : Z.
Variable t : item.
Hypothesis SC : i_scene A jent pg t.
Let R x := in_range x (i_base t) (region_size A jent pg (i_p t) (i_off t) (i_n t)).

Lemma one_keeps s x : ~ R x -> sx s x = true -> sx (snd (object_apply_patch A jent pg (i_o t) s)) x = true.
Proof.
  intros Hx Hs. apply (k_apply R); [|exact Hx|exact Hs]. intros p off n Ep Ei.
  pose proof (sc_fresh _ _ _ _ _ _ _ _ SC) as [F1 _ _ _ _]. rewrite F1 in Ep. injection Ep as <-.
  pose proof (sc_patch _ _ _ _ _ _ _ _ SC) as HP. rewrite (po_info _ _ _ _ _ _ HP) in Ei. injection Ei as <- <-.
  pose proof (lf_sz_up _ _ _ _ _ _ _ _ _ (facts A jent pg (sc_machine _ _ _ _ _ _ _ _ SC) _ _ _ HP)) as Up.
  pose proof (sc_base _ _ _ _ _ _ _ _ SC) as Eb.   rewrite Up, Eb. intros y Hy. exact Hy.
Qed.

Lemma bookkeeping_inside x : i_named A jent pg t ->
  (exists img jt, p_link (i_p t) (i_base t) (region_hdr A jent pg (i_p t) (i_off t) (i_n t)) = Some (img, jt)) ->
  bookkeeping A (region_hdr A jent pg (i_p t) (i_off t) (i_n t)) (i_base t) (i_n t) x -> R x.
Proof.
  intros (_ & Tab) (img & jt & Hl) B. specialize (Tab _ _ Hl). destruct Tab as [T1 T2 _ _].
  pose proof (sc_machine _ _ _ _ _ _ _ _ SC) as HM. pose proof (sc_patch _ _ _ _ _ _ _ _ SC) as HP.
  pose proof (facts A jent pg HM _ _ _ HP) as LF.
  pose proof (lf_info _ _ _ _ _ _ _ _ _ LF) as L1. pose proof (lf_img _ _ _ _ _ _ _ _ _ LF) as L2.
  pose proof (lf_undo _ _ _ _ _ _ _ _ _ LF) as L3. pose proof (lf_elf_lo _ _ _ _ _ _ _ _ _ LF) as L4.
  destruct (po_link _ _ _ _ _ _ HP _ _ _ _ Hl) as (Zi & _). destruct HM as [M1 _ _ _].
  pose proof (po_total _ _ _ _ _ _ HP) as Pt. pose proof (po_info_off _ _ _ _ _ _ HP) as Po.
  unfold R, in_range, bookkeeping, hdr_size, info_size in *.
  set (EO := get32 (region_hdr A jent pg (i_p t) (i_off t) (i_n t)) h_elf_offset) in *.
  set (UO := get32 (region_hdr A jent pg (i_p t) (i_off t) (i_n t)) h_user_undo) in *.
  set (sz := region_size A jent pg (i_p t) (i_off t) (i_n t)) in *.
  assert (0 <= a_hunk A * Z.of_nat (i_n t)) by nia.
  unfold in_range in B. lia.
Qed.
End One.

Section Several.
Variable A : arch.
Variables jent pg : Z.
Notation area := (area A jent pg).
Notation i_size t := (region_size A jent pg (i_p t) (i_off t) (i_n t)).

(** ** In turn, up to the first failure. *)
Lemma apply_patch_object fuel o s k o' s' : object_apply_patch A jent pg o s = (Ret k, o', s') ->
  patch_object A jent pg fuel o s = (Ret k, o', s').
Proof. intros H. unfold patch_object. now rewrite H. Qed.
Lemma apply_in_turn fuel : forall objs applied s r os s', apply_patches A jent pg fuel objs applied s = (r, os, s') ->
  exists done ks done' s1, in_turn A jent pg fuel done s ks done' s1 /\
   ((objs = done /\ os = done' /\ s' = s1 /\ r = Ret (applied + zlen (filter (fun k => negb (k =? 0)) ks))) \/
    (exists o o' rest, objs = done ++ o :: rest /\ os = done' ++ o' :: rest /\
       patch_object A jent pg fuel o s1 = (r, o', s') /\ forall k, r <> Ret k)).
Proof.
  induction objs as [|o rest IH]; intros applied s r os s' H; cbn [apply_patches] in H.
  - injection H as <- <- <-. exists [], [], [], s. split; [constructor|]. left. rewrite Z.add_0_r. auto.
  - destruct (object_apply_patch A jent pg o s) as [[[k| | | |] o'] s1] eqn:E.
    + destruct (apply_patches A jent pg fuel rest (if k =? 0 then applied else applied + 1) s1) as [[res r'] s2] eqn:E2.
      injection H as <- <- <-. destruct (IH _ _ _ _ _ E2) as (done & ks & done' & s3 & T & C).
      exists (o :: done), (k :: ks), (o' :: done'), s3. split; [econstructor; [apply apply_patch_object; exact E|exact T]|].
      destruct C as [(-> & -> & -> & ->)|(f & f' & q & -> & -> & P & N)].
      * left. repeat split. f_equal. cbn [filter]. destruct (k =? 0); cbn [negb]; [reflexivity|]. unfold zlen. cbn [length]. lia.
      * right. exists f, f', q. repeat split; auto.
    + assert (P : patch_object A jent pg fuel o s =
        match object_unapply_patch A pg fuel true o' s1 with
        | (Die, o'', s'') => (Die, o'', s'') | (Hang, o'', s'') => (Hang, o'', s'') | (UB, o'', s'') => (UB, o'', s'')
        | (_, o'', s'') => (Err, o'', s'') end) by (unfold patch_object; now rewrite E).
      destruct (object_unapply_patch A pg fuel true o' s1) as [[[k| | | |] o''] s2];
        injection H as <- <- <-; exists [], [], [], s; (split; [constructor|]); right; exists o, o'', rest;
        repeat split; auto; discriminate.
    + injection H as <- <- <-. exists [], [], [], s. split; [constructor|]. right. exists o, o', rest.
      repeat split; auto; try discriminate. unfold patch_object. now rewrite E.
    + injection H as <- <- <-. exists [], [], [], s. split; [constructor|]. right. exists o, o', rest.
      repeat split; auto; try discriminate. unfold patch_object. now rewrite E.
    + injection H as <- <- <-. exists [], [], [], s. split; [constructor|]. right. exists o, o', rest.
      repeat split; auto; try discriminate. unfold patch_object. now rewrite E.
Qed.

(** ** Nothing else changes. *)
Definition low_free (items : list item) (m : mem) : Prop := forall t, In t items -> nothing_at m 0 (i_size t).
Lemma one_frame fuel t s : (1 <= fuel)%nat -> i_scene A jent pg t -> file_clean (p_hdr (i_p t)) -> nothing_at (sm s) 0 (i_size t) ->
  let '(r, _, s') := patch_object A jent pg fuel (i_o t) s in
  r <> Hang /\ r <> UB /\ forall x, ~ area t x -> sm s' x = sm s x.
Proof.
  intros F SC C L. 
  pose proof (patching_frame_rollback A jent pg (i_p t) (i_off t) (i_n t) (i_o t) (i_base t) SC fuel s F C L) as P.
  destruct (patch_object A jent pg fuel (i_o t) s) as [[r o'] s']. destruct P as (P1 & P2 & P3). split; [exact P1|]. split; [exact P2|].
  intros x N. apply P3; intros X; apply N; [now left|now right].
Qed.
Lemma in_turn_frame fuel : (1 <= fuel)%nat -> forall items s ks os s', in_turn A jent pg fuel (map i_o items) s ks os s' ->
  (forall t, In t items -> i_scene A jent pg t /\ file_clean (p_hdr (i_p t))) ->
  (forall a b x, In a items -> In b items -> in_range x 0 (i_size b) -> ~ area a x) ->
  low_free items (sm s) ->
  (forall x, (forall t, In t items -> ~ area t x) -> sm s' x = sm s x) /\ low_free items (sm s').
Proof.
  intros F. induction items as [|t r IH]; intros s ks os s' H OK Low Free; inversion H; subst.
  - split; [auto|exact Free].
  - destruct (OK t (or_introl eq_refl)) as (SC & C).
    match goal with H : patch_object _ _ _ _ _ _ = _, H2 : in_turn _ _ _ _ _ _ _ _ _ |- _ => rename H into P; rename H2 into T end.
    pose proof (one_frame fuel t s F SC C (Free t (or_introl eq_refl))) as Q. rewrite P in Q. destruct Q as (_ & _ & Q).
    assert (Free1 : low_free (t :: r) (sm s1)).
    { intros b Ib x Hx. rewrite Q; [now apply (Free b Ib)|]. exact (Low t b x (or_introl eq_refl) Ib Hx). }
    destruct (IH _ _ _ _ T) as (I1 & I2).
    + intros u Iu. apply OK. now right.
    + intros a b x Ia Ib. apply Low; now right.
    + intros u Iu. apply Free1. now right.
    + split.
      * intros x N. rewrite I1 by (intros u Iu; apply N; now right). apply Q. apply N. now left.
      * intros b Ib. destruct Ib as [->|Ib]; [|now apply I2]. intros x Hx. rewrite I1; [now apply (Free1 b (or_introl eq_refl))|].
        intros u Iu. apply (Low u b x); [now right|now left|exact Hx].
Qed.
Lemma apply_frame fuel items applied s : (1 <= fuel)%nat ->
  (forall t, In t items -> i_scene A jent pg t /\ file_clean (p_hdr (i_p t))) ->
  (forall a b x, In a items -> In b items -> in_range x 0 (i_size b) -> ~ area a x) -> low_free items (sm s) ->
  let '(r, _, s') := apply_patches A jent pg fuel (map i_o items) applied s in
  r <> Hang /\ r <> UB /\ forall x, (forall t, In t items -> ~ area t x) -> sm s' x = sm s x.
Proof.
  intros F OK Low Free. destruct (apply_patches A jent pg fuel (map i_o items) applied s) as [[r os] s'] eqn:E.
  destruct (apply_in_turn _ _ _ _ _ _ _ E) as (done & ks & done' & s1 & T & C).
  destruct C as [(Ed & _ & -> & ->)|(o & o' & rest & Ed & _ & P & N)].
  - subst done. destruct (in_turn_frame fuel F items s ks done' s1 T OK Low Free) as (Fr & _).
    split; [discriminate|]. split; [discriminate|exact Fr].
  - assert (Sp : exists l1 t l2, items = l1 ++ t :: l2 /\ map i_o l1 = done /\ i_o t = o).
    { apply map_eq_app in Ed as (l1 & l2 & -> & E1 & E2). destruct l2 as [|t l2]; [discriminate|]. injection E2 as E2 _. eauto 6. }
    destruct Sp as (l1 & t & l2 & -> & <- & <-).
    assert (In1 : forall u, In u l1 -> In u (l1 ++ t :: l2)) by (intros; apply in_or_app; now left).
    assert (Int : In t (l1 ++ t :: l2)) by (apply in_or_app; right; now left).
    destruct (in_turn_frame fuel F l1 s ks done' s1 T) as (Fr & _).
    { intros u Iu. exact (OK u (In1 u Iu)). }
    { intros a b x Ia Ib. exact (Low a b x (In1 a Ia) (In1 b Ib)). }
    { intros u Iu. exact (Free u (In1 u Iu)). }
    destruct (OK t Int) as (SC & Cl).
    assert (Ft : nothing_at (sm s1) 0 (i_size t)).
    { intros x Hx. rewrite Fr; [now apply (Free t Int)|]. intros u Iu. exact (Low u t x (In1 u Iu) Int Hx). }
    pose proof (one_frame fuel t s1 F SC Cl Ft) as Q. rewrite P in Q. destruct Q as (Q1 & Q2 & Q3).
    split; [exact Q1|]. split; [exact Q2|]. intros x Nx. rewrite Q3 by now apply Nx. apply Fr. auto.
Qed.

(** ** Cancelling. *)
(** What is known of a patched file: the run that patched it, from a state that agreed with
    the first state on its area, to one that agrees with the last. *)
Definition stands (s s' : st) (t : item) : Prop :=
  exists sa o' sb, object_apply_patch A jent pg (i_o t) sa = (Ret 1, o', sb) /\
    (forall x, area t x -> sm sa x = sm s x) /\ (forall x, area t x -> sm s' x = sm sb x) /\ sx s' (i_base t) = true.
Lemma patch_ret fuel o s k o' s' : patch_object A jent pg fuel o s = (Ret k, o', s') -> object_apply_patch A jent pg o s = (Ret k, o', s').
Proof.
  unfold patch_object. destruct (object_apply_patch A jent pg o s) as [[[q| | | |] o1] s1]; intros H; try exact H.
  destruct (object_unapply_patch A pg fuel true o1 s1) as [[[q| | | |] o2] s2]; discriminate.
Qed.
Lemma base_in t : i_scene A jent pg t -> in_range (i_base t) (i_base t) (i_size t).
Proof. intros SC. pose proof (sz_pos A jent pg (i_p t) (i_off t) (i_n t) (i_o t) (i_base t) SC). unfold in_range. lia. Qed.
Lemma ret_frame t s k o' s' : i_scene A jent pg t -> object_apply_patch A jent pg (i_o t) s = (Ret k, o', s') ->
  forall x, ~ area t x -> sm s' x = sm s x.
Proof.
  intros SC E x N. pose proof (patching_frame A jent pg (i_p t) (i_off t) (i_n t) (i_o t) (i_base t) SC s) as P. rewrite E in P. destruct P as (_ & _ & P).
  apply P; intros X; apply N; [now left|now right].
Qed.
Lemma in_turn_area fuel : forall items s ks os s', in_turn A jent pg fuel (map i_o items) s ks os s' ->
  (forall t, In t items -> i_scene A jent pg t) ->
  (forall x, (forall t, In t items -> ~ area t x) -> sm s' x = sm s x) /\
  (forall x, (forall t, In t items -> ~ area t x) -> sx s x = true -> sx s' x = true).
Proof.
  induction items as [|t r IH]; intros s ks os s' H OK; inversion H; subst; [auto|].
  match goal with H : patch_object _ _ _ _ _ _ = _, H2 : in_turn _ _ _ _ _ _ _ _ _ |- _ => rename H into P; rename H2 into T end.
  apply patch_ret in P. pose proof (OK t (or_introl eq_refl)) as SC.
  destruct (IH _ _ _ _ T (fun u I => OK u (or_intror I))) as (I1 & I2). split; intros x N.
  - rewrite I1 by (intros u Iu; apply N; now right). apply (ret_frame t s k o' s1 SC P). apply N. now left.
  - intros Hx. apply I2; [intros u Iu; apply N; now right|].
    pose proof (one_keeps A jent pg t SC s x) as K. rewrite P in K. apply K; [|exact Hx].
    intros C. apply (N t (or_introl eq_refl)). now left.
Qed.
Lemma in_turn_stands fuel : forall items s ks os s', in_turn A jent pg fuel (map i_o items) s ks os s' ->
  (forall t, In t items -> i_scene A jent pg t) -> apart A jent pg items -> Forall (fun k => k <> 0) ks ->
  forall t, In t items -> stands s s' t.
Proof.
  induction items as [|t r IH]; intros s ks os s' H OK Ap Nz u Iu; [easy|]. inversion H; subst.
  match goal with H : patch_object _ _ _ _ _ _ = _, H2 : in_turn _ _ _ _ _ _ _ _ _ |- _ => rename H into P; rename H2 into T end.
  apply patch_ret in P. pose proof (OK t (or_introl eq_refl)) as SC.
  inversion Ap as [|? ? Ap1 Ap2]; subst. rewrite Forall_forall in Ap1.
  assert (OKr : forall v, In v r -> i_scene A jent pg v) by (intros v Iv; apply OK; now right).
  inversion Nz as [|? ? Nz1 Nz2]; subst.
  assert (K1 : k = 1).
  { destruct (patch_effective A jent pg (i_p t) (i_off t) (i_n t) (i_o t) (i_base t) SC s o' s1 k P) as (-> & _). reflexivity. }
  subst k. destruct Iu as [->|Iu].
  - destruct (in_turn_area fuel r s1 _ _ s' T OKr) as (A1 & A2).
    exists s, o', s1. split; [exact P|]. split; [auto|]. split.
    + intros x Hx. apply A1. intros v Iv Av. exact (Ap1 v Iv x Hx Av).
    + apply A2.
      * intros v Iv Av. exact (Ap1 v Iv _ (or_introl (base_in u SC)) Av).
      * destruct (applied_facts A jent pg (i_p u) (i_off u) (i_n u) (i_o u) (i_base u) SC s o' s1 P) as (X & _). exact X.
  - destruct (IH s1 _ _ s' T OKr Ap2 Nz2 u Iu) as (sa & oa & sb & E & E1 & E2 & E3).
    exists sa, oa, sb. split; [exact E|]. split; [|auto]. intros x Hx. rewrite E1 by exact Hx.
    apply (ret_frame t s 1 o' s1 SC P). intros At. exact (Ap1 u Iu x At Hx).
Qed.

(** One patch taken away. *)
Lemma stands_cancel fuel s s' t : (i_n t < fuel)%nat -> i_scene A jent pg t -> i_named A jent pg t ->
  nothing_at (sm s) (i_base t) (i_size t) -> stands s s' t ->
  exists s'', unpatch_object A pg fuel (i_bid t) (i_id t) (i_base t) (quiet s') = (Ret 1, s'') /\
    (forall x, area t x -> sm s'' x = sm s x) /\ (forall x, ~ area t x -> sm s'' x = sm s' x) /\
    (forall x, ~ area t x -> sx s'' x = sx s' x).
Proof.
  intros F SC Nm Free (sa & o' & sb & E & E1 & E2 & E3). pose proof Nm as (Lab & Tab).
  destruct (applied_facts A jent pg (i_p t) (i_off t) (i_n t) (i_o t) (i_base t) SC sa o' sb E) as (F1 & F2 & F3).
  assert (Ex : exists img jt, p_link (i_p t) (i_base t) (region_hdr A jent pg (i_p t) (i_off t) (i_n t)) = Some (img, jt)).
  { destruct (patch_effective A jent pg (i_p t) (i_off t) (i_n t) (i_o t) (i_base t) SC sa o' sb 1 E) as (_ & _ & _ & img & jt & Hl & _). eauto. }
  destruct (unpatch_restores_x A jent pg (i_p t) (i_off t) (i_n t) (i_o t) (i_base t) SC fuel (i_id t) (i_bid t) sa o' sb s' F Lab Tab E E3) as (s'' & U & G1 & G2 & G3 & G4).
  - intros x Hx. rewrite E2 by now left. now apply F2.
  - intros x Hx. apply E2. left. exact (bookkeeping_inside A jent pg t SC x Nm Ex Hx).
  - intros x Hx. rewrite E2 by now right. now apply F3.
  - exists s''. split; [exact U|]. split; [|split].
    + intros x [Hx|Hx]; [rewrite G1 by exact Hx; symmetry; now apply Free|]. rewrite G2 by exact Hx. apply E1. now right.
    + intros x N. apply G3; intros X; apply N; [now left|now right].
    + intros x N. apply G4. intros X. apply N. now left.
Qed.
Definition apart2 (a b : item) : Prop := forall x, area a x -> ~ area b x.
Lemma apart_perm l l' : Permutation l l' -> apart A jent pg l -> apart A jent pg l'.
Proof.
  unfold apart. fold apart2. induction 1 as [|x l l' P IH|x y l|l l' l'' P1 IH1 P2 IH2]; intros H; auto.
  - inversion H; subst. constructor; [|auto]. rewrite Forall_forall in *. intros z I. apply H2. now apply (Permutation_in _ (Permutation_sym P)).
  - inversion H as [|? ? H1 H2]; subst. inversion H2 as [|? ? H3 H4]; subst. rewrite Forall_forall in *.
    constructor; [|constructor; [|exact H4]]; rewrite Forall_forall.
    + intros z [->|I]; [|auto]. intros w C1 C2. exact (H1 x (or_introl eq_refl) w C2 C1).
    + intros z I. apply H1. now right.
Qed.
Lemma cancel_some fuel s : forall l1 l2 s', (forall t, In t (l1 ++ l2) -> (i_n t < fuel)%nat /\ i_scene A jent pg t /\ i_named A jent pg t /\
    nothing_at (sm s) (i_base t) (i_size t)) -> apart A jent pg (l1 ++ l2) -> (forall t, In t l1 -> stands s s' t) ->
  exists s'', cancelled A pg fuel l1 s' s'' /\
    (forall t x, In t l1 -> area t x -> sm s'' x = sm s x) /\
    (forall x, (forall t, In t l1 -> ~ area t x) -> sm s'' x = sm s' x).
Proof.
  induction l1 as [|t r IH]; intros l2 s' OK Ap St.
  - exists s'. split; [constructor|]. split; [easy|auto].
  - destruct (OK t (or_introl eq_refl)) as (F & SC & Nm & Free).
    destruct (stands_cancel fuel s s' t F SC Nm Free (St t (or_introl eq_refl))) as (s1 & U & G1 & G2 & G3).
    inversion Ap as [|? ? Ap1 Ap2]; subst. rewrite Forall_forall in Ap1.
    destruct (IH l2 s1) as (s'' & C & H1 & H2).
    + intros u Iu. apply OK. now right.
    + exact Ap2.
    + intros u Iu. assert (Iu' : In u (r ++ l2)) by (apply in_or_app; now left).
      destruct (St u (or_intror Iu)) as (sa & oa & sb & E & E1 & E2 & E3). exists sa, oa, sb. split; [exact E|]. split; [exact E1|]. split.
      * intros x Hx. rewrite G2; [auto|]. intros At. exact (Ap1 u Iu' x At Hx).
      * rewrite G3; [exact E3|]. intros At. apply (Ap1 u Iu' _ At). left. apply base_in. apply OK. now right.
    + exists s''. split; [econstructor; eassumption|]. split.
      * intros u x [->|Iu] Hx; [|now apply (H1 u)]. rewrite H2; [now apply G1|].
        intros v Iv Av. exact (Ap1 v (in_or_app _ _ _ (or_introl Iv)) x Hx Av).
      * intros x N. rewrite H2 by (intros v Iv; apply N; now right). apply G2. apply N. now left.
Qed.
End Several.

Lemma area_dec A jent pg t x : area A jent pg t x \/ ~ area A jent pg t x.
Proof.
  unfold area. assert (D : in_range x (i_base t) (region_size A jent pg (i_p t) (i_off t) (i_n t)) \/ ~ in_range x (i_base t) (region_size A jent pg (i_p t) (i_off t) (i_n t)))
    by (unfold in_range; lia).
  destruct D as [D|D]; [auto|].
  destruct (p_link (i_p t) (i_base t) (region_hdr A jent pg (i_p t) (i_off t) (i_n t))) as [[img jt]|] eqn:E.
  - destruct (classic_entry (infos_of img (i_off t) (i_n t)) (a_hunk A) x) as [C|C].
    + left. right. exists img, jt. auto.
    + right. intros [X|(img' & jt' & E' & X)]; [auto|]. rewrite E in E'. injection E' as <- <-. auto.
  - right. intros [X|(img' & jt' & E' & X)]; [auto|]. congruence.
Qed.
Lemma areas_dec A jent pg l x : (exists t, In t l /\ area A jent pg t x) \/ (forall t, In t l -> ~ area A jent pg t x).
Proof.
  induction l as [|a l [(t & I & H)|N]]; [right; easy|left; exists t; split; [now right|exact H]|].
  destruct (area_dec A jent pg a x) as [D|D]; [left; exists a; split; [now left|exact D]|].
  right. intros t [<-|I]; auto.
Qed.
