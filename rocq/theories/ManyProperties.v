(** Property C127: patches of several files of one process. *)
From Coq Require Import Permutation.
From Verif Require Import Base BaseProofs RemoteModel JumpModel EngineModel EngineSpec EngineExamples ManySpec ManyProofs.

(** The objects are patched one after the other, each with its roll-back should it fail.
    The first that fails ends it: those before it stay as they are, those after it are
    not looked at.  The number reported is how many there was something to do for. *)
Theorem C127_in_turn : forall A jent pg fuel objs s r os s', apply_patches A jent pg fuel objs 0 s = (r, os, s') ->
  exists done ks done' s1, in_turn A jent pg fuel done s ks done' s1 /\
   ((objs = done /\ os = done' /\ s' = s1 /\ r = Ret (zlen (filter (fun k => negb (k =? 0)) ks))) \/
    (exists o o' rest, objs = done ++ o :: rest /\ os = done' ++ o' :: rest /\
       patch_object A jent pg fuel o s1 = (r, o', s') /\ forall k, r <> Ret k)).
Proof.
  intros A jent pg fuel objs s r os s' H. destruct (apply_in_turn A jent pg fuel objs 0 s r os s' H) as (d & ks & d' & s1 & T & C).
  exists d, ks, d', s1. split; [exact T|]. rewrite Z.add_0_l in C. exact C.
Qed.
Print Assumptions C127_in_turn.

(** However it ends, nothing is changed but the regions and the entries of the replaced
    functions. *)
Theorem C127_frame : forall A jent pg fuel items s, (1 <= fuel)%nat ->
  (forall t, In t items -> i_scene A jent pg t /\ file_clean (p_hdr (i_p t))) ->
  (forall a b x, In a items -> In b items -> in_range x 0 (region_size A jent pg (i_p b) (i_off b) (i_n b)) -> ~ area A jent pg a x) ->
  (forall t, In t items -> nothing_at (sm s) 0 (region_size A jent pg (i_p t) (i_off t) (i_n t))) ->
  let '(r, _, s') := apply_patches A jent pg fuel (map i_o items) 0 s in
  r <> Hang /\ r <> UB /\ forall x, (forall t, In t items -> ~ area A jent pg t x) -> sm s' x = sm s x.
Proof. intros A jent pg fuel items s. apply apply_frame. Qed.
Print Assumptions C127_frame.

(** All objects were patched; no two patches change the same byte.  Then any of the
    patches, in any order, can be cancelled by later runs: what these changed is as it
    was before, everything else, the other patches included, is as it is. *)
Theorem C127_cancel : forall A jent pg fuel fuel' items s os s' l1 l2,
  (forall t, In t items -> (i_n t < fuel')%nat /\ i_scene A jent pg t /\ i_named A jent pg t /\
     nothing_at (sm s) (i_base t) (region_size A jent pg (i_p t) (i_off t) (i_n t))) ->
  apart A jent pg items -> Permutation (l1 ++ l2) items ->
  apply_patches A jent pg fuel (map i_o items) 0 s = (Ret (zlen items), os, s') ->
  exists s'', cancelled A pg fuel' l1 s' s'' /\
    (forall t x, In t l1 -> area A jent pg t x -> sm s'' x = sm s x) /\
    (forall x, (forall t, In t l1 -> ~ area A jent pg t x) -> sm s'' x = sm s' x).
Proof.
  intros A jent pg fuel fuel' items s os s' l1 l2 OK Ap P H.
  destruct (apply_in_turn A jent pg fuel _ _ _ _ _ _ H) as (done & ks & done' & s1 & T & [(Ed & _ & -> & Er)|(? & ? & ? & _ & _ & _ & N)]);
    [|exfalso; exact (N _ eq_refl)].
  subst done. injection Er as Er.
  assert (L : length ks = length items).
  { assert (G : forall ob s ks ob' s1, in_turn A jent pg fuel ob s ks ob' s1 -> length ks = length ob) by (induction 1; cbn; congruence).
    rewrite (G _ _ _ _ _ T). apply map_length. }
  assert (Nz : Forall (fun k => k <> 0) ks).
  { assert (G : forall l : list Z, length (filter (fun k => negb (k =? 0)) l) = length l -> Forall (fun k => k <> 0) l).
    { assert (Le : forall l : list Z, (length (filter (fun k => negb (k =? 0)%Z) l) <= length l)%nat).
      { induction l as [|a l IH]; cbn; [lia|]. destruct (negb (a =? 0)); cbn; lia. }
      induction l as [|a l IH]; [constructor|]. cbn. destruct (negb (a =? 0)) eqn:E; cbn; intros G; [constructor; [lia|apply IH; lia]|].
      specialize (Le l). lia. }
    apply G. unfold zlen in Er. lia. }
  assert (In1 : forall t, In t (l1 ++ l2) -> In t items) by (intros t I; now apply (Permutation_in _ P)).
  apply (cancel_some A jent pg fuel' s l1 l2 s1).
  - intros t I. apply OK. now apply In1.
  - apply (apart_perm A jent pg items); [now apply Permutation_sym|exact Ap].
  - intros t I. apply (in_turn_stands A jent pg fuel items s ks done' s1 T); auto.
    + intros u Iu. now apply OK.
    + apply In1. apply in_or_app. now left.
Qed.
Print Assumptions C127_cancel.

(** When all of them are cancelled, all of memory is as it was. *)
Theorem C127_cancel_all : forall A jent pg fuel fuel' items s os s' l, (1 <= fuel)%nat ->
  (forall t, In t items -> (i_n t < fuel')%nat /\ i_scene A jent pg t /\ i_named A jent pg t /\ file_clean (p_hdr (i_p t)) /\
     nothing_at (sm s) (i_base t) (region_size A jent pg (i_p t) (i_off t) (i_n t)) /\
     nothing_at (sm s) 0 (region_size A jent pg (i_p t) (i_off t) (i_n t))) ->
  (forall a b x, In a items -> In b items -> in_range x 0 (region_size A jent pg (i_p b) (i_off b) (i_n b)) -> ~ area A jent pg a x) ->
  apart A jent pg items -> Permutation l items ->
  apply_patches A jent pg fuel (map i_o items) 0 s = (Ret (zlen items), os, s') ->
  exists s'', cancelled A pg fuel' l s' s'' /\
    forall x, sm s'' x = sm s x.
Proof.
  intros A jent pg fuel fuel' items s os s' l F OK Low Ap P H.
  destruct (C127_cancel A jent pg fuel fuel' items s os s' l []) as (s'' & C & H1 & H2); auto.
  - intros t I. destruct (OK t I) as (O1 & O2 & O3 & _ & O4 & _). auto.
  - now rewrite app_nil_r.
  - exists s''. split; [exact C|]. intros x. destruct (areas_dec A jent pg items x) as [(t & I & At)|N].
    + apply (H1 t); [|exact At]. now apply (Permutation_in _ (Permutation_sym P)).
    + rewrite H2 by (intros t I; apply N; now apply (Permutation_in _ P)).
      pose proof (C127_frame A jent pg fuel items s F) as Fr. rewrite H in Fr. apply Fr; auto.
      * intros t I. destruct (OK t I) as (_ & O2 & _ & O4 & _). auto.
      * intros t I. apply OK, I.
Qed.
Print Assumptions C127_cancel_all.

(** Two files, three functions and one. *)
Definition m_entries : list (list Z) := [ex_entry 0x408000 0x601000 16 20].
Definition m_p : patch := ex_patch m_entries.
Definition m_o : obj :=
  {| o_patch := Some m_p; o_is_patch := false; o_applied := []; o_hdr := None; o_info := None;
     o_kpta := 0; o_find := fun _ => 0x600000 |}.
Definition m1 : item := {| i_p := ex_p; i_off := 0; i_n := 3; i_o := ex_o; i_base := 0x500000; i_id := ex_id; i_bid := ex_bid |}.
Definition m2 : item := {| i_p := m_p; i_off := 0; i_n := 1; i_o := m_o; i_base := 0x600000; i_id := ex_id; i_bid := ex_bid |}.
Lemma m_replaces j d : replaces (infos_of (ex_img m_entries) 0 1) j d -> j = 0%nat /\ d = 0x408000.
Proof.
  intros (i & Hn & Hw & <-). destruct j as [|j]; vm_compute in Hn; [|destruct j; discriminate]. apply some_inj in Hn. subst i.
  split; reflexivity.
Qed.
Lemma m_scene : scene x86 16 4096 m_p 0 1 m_o 0x600000.
Proof.
  split; try reflexivity.
  - apply x86_machine.
  - split.
    + vm_compute. reflexivity.
    + byte_check.
    + reflexivity.
    + lia.
    + vm_compute. congruence.
    + vm_compute. congruence.
    + vm_compute. congruence.
    + vm_compute. reflexivity.
    + reflexivity.
    + repeat constructor.
    + intros kpta h img jt E. change (Some (ex_img m_entries, repeat 0 16) = Some (img, jt)) in E.
      apply some_inj in E. injection E as <- <-. split; [vm_compute; reflexivity|]. split; [byte_check|].
      split; [vm_compute; reflexivity|]. repeat constructor.
  - split; reflexivity.
  - intros img jt E. change (Some (ex_img m_entries, repeat 0 16) = Some (img, jt)) in E.
    apply some_inj in E. injection E as <- <-.
    change (region_size x86 16 4096 m_p 0 1) with 8192. cbn [x86 a_hunk]. split.
    + intros j d Hr. destruct (m_replaces j d Hr) as [_ ->]; lia.
    + intros j1 j2 d1 d2 H1 H2 Hne. destruct (m_replaces _ _ H1) as [-> ->]. destruct (m_replaces _ _ H2) as [-> ->]. congruence.
Qed.
Lemma m_size : region_size x86 16 4096 m_p 0 1 = 8192.
Proof. vm_compute. reflexivity. Qed.
Lemma m_table : forall img jt, p_link m_p 0x600000 (region_hdr x86 16 4096 m_p 0 1) = Some (img, jt) -> table_ok img 0 1.
Proof.
  intros img jt E. change (Some (ex_img m_entries, repeat 0 16) = Some (img, jt)) in E.
  apply some_inj in E. injection E as <- <-. split.
  - lia.
  - vm_compute. congruence.
  - intros i Hi. repeat (destruct Hi as [<-|Hi]; [reflexivity|]). destruct Hi.
  - intros k Hk. unfold info_size.
    assert (HB : forallb (fun b => b =? 0) (skipn 48 (ex_img m_entries)) = true) by reflexivity.
    replace (Z.to_nat (0 + 48 * Z.of_nat 1 + k)) with (48 + Z.to_nat k)%nat by lia.
    rewrite <- nth_skipn. rewrite forallb_forall in HB.
    destruct (Nat.lt_ge_cases (Z.to_nat k) (length (skipn 48 (ex_img m_entries)))) as [Hl|Hl].
    + specialize (HB _ (nth_In _ 0 Hl)). lia.
    + apply nth_overflow. exact Hl.
Qed.
Lemma m_free : nothing_at ex_mem 0x600000 8192.
Proof.
  intros x Hx. unfold in_range in Hx. unfold ex_mem.
  destruct (x <? 0x410000) eqn:E; [lia|]. rewrite andb_false_r. reflexivity.
Qed.
Lemma m1_area x : area x86 16 4096 m1 x -> 0x500000 <= x < 0x502000 \/ 0x400000 <= x < 0x400005 \/ 0x400100 <= x < 0x400105.
Proof.
  intros [H|(img & jt & E & j & d & R & H)]; cbn [m1 i_base i_p i_off i_n] in *.
  - rewrite ex_size in H. unfold in_range in H. lia.
  - change (Some (ex_img ex_entries, repeat 0 16) = Some (img, jt)) in E. apply some_inj in E. injection E as <- <-.
    unfold in_range in H. cbn [x86 a_hunk] in H. destruct (ex_replaces j d R) as [(_ & ->)|(_ & ->)]; lia.
Qed.
Lemma m2_area x : area x86 16 4096 m2 x -> 0x600000 <= x < 0x602000 \/ 0x408000 <= x < 0x408005.
Proof.
  intros [H|(img & jt & E & j & d & R & H)]; cbn [m2 i_base i_p i_off i_n] in *.
  - rewrite m_size in H. unfold in_range in H. lia.
  - change (Some (ex_img m_entries, repeat 0 16) = Some (img, jt)) in E. apply some_inj in E. injection E as <- <-.
    unfold in_range in H. cbn [x86 a_hunk] in H. destruct (m_replaces j d R) as (_ & ->); lia.
Qed.
Definition m_run : outcome Z * list obj * st := apply_patches x86 16 4096 10 (map i_o [m1; m2]) 0 (ex_st []).
Example C127_case : m_run = (Ret (zlen [m1; m2]), snd (fst m_run), snd m_run) /\
  sm (snd m_run) 0x400000 = Some 233 /\ sm (snd m_run) 0x408000 = Some 233 /\
  sm (ex_st []) 0x400000 = Some 94 /\ sm (ex_st []) 0x408000 = Some 232 /\
  (forall t, In t [m1; m2] -> (i_n t < 10)%nat /\ i_scene x86 16 4096 t /\ i_named x86 16 4096 t /\ file_clean (p_hdr (i_p t)) /\
     nothing_at (sm (ex_st [])) (i_base t) (region_size x86 16 4096 (i_p t) (i_off t) (i_n t)) /\
     nothing_at (sm (ex_st [])) 0 (region_size x86 16 4096 (i_p t) (i_off t) (i_n t))) /\
  (forall a b x, In a [m1; m2] -> In b [m1; m2] ->
     in_range x 0 (region_size x86 16 4096 (i_p b) (i_off b) (i_n b)) -> ~ area x86 16 4096 a x) /\
  apart x86 16 4096 [m1; m2].
Proof.
  assert (E : fst (fst m_run) = Ret (zlen [m1; m2])) by (vm_compute; reflexivity).
  split; [destruct m_run as [[r os] s']; cbn [fst snd] in *; now rewrite E|].
  split; [vm_compute; reflexivity|]. split; [vm_compute; reflexivity|]. split; [vm_compute; reflexivity|]. split; [vm_compute; reflexivity|].
  clear E. split; [|split].
  - intros t [<-|[<-|[]]]; cbn [m1 m2 i_n i_p i_base i_off].
    + split; [lia|]. split; [exact ex_scene|]. split; [split; [exact ex_labelled|exact ex_table_ok]|]. split; [exact ex_clean|].
      rewrite ex_size. split; [exact ex_free|exact ex_low].
    + split; [lia|]. split; [exact m_scene|]. split; [split; [split; try (vm_compute; reflexivity); cbn; lia|exact m_table]|].
      split; [split; vm_compute; reflexivity|]. rewrite m_size. split; [|exact ex_low].
      exact m_free.
  - intros a b x Ia Ib Hx At. assert (x < 8192).
    { destruct Ib as [<-|[<-|[]]]; cbn [m1 m2 i_n i_p i_off] in Hx; rewrite ?ex_size, ?m_size in Hx; unfold in_range in Hx; lia. }
    destruct Ia as [<-|[<-|[]]]; [apply m1_area in At|apply m2_area in At]; lia.
  - constructor; [|repeat constructor]. constructor; [|constructor]. intros x H1 H2. apply m1_area in H1. apply m2_area in H2. lia.
Qed.
