From Coq Require Import String.
From Verif Require Import Base BaseProofs StorageModel StorageProofs ProcModel ProcSpec ProcProofs.
Open Scope list_scope.

(** ** Which objects are worked on *)
Definition elig (sel : list (list Z)) (o : pobj) : bool :=
  negb (po_patch o) && negb (match po_applied o with [] => true | _ => false end) && po_target o
  && should_unapply o sel.
Fixpoint elig_list (sel : list (list Z)) (n : nat) (os : list pobj) : list uact :=
  match os with
  | [] => []
  | o :: r => if elig sel o
              then {| ua_obj := n; ua_kpta := po_kpta o; ua_hdr := po_hdr o |} :: elig_list sel (S n) r
              else elig_list sel (S n) r
  end.

Lemma unapply_cons un sel n o r done : unapply_loop un sel n (o :: r) done =
  if elig sel o
  then let a := {| ua_obj := n; ua_kpta := po_kpta o; ua_hdr := po_hdr o |} in
       if un n <? 0 then (un n, [a])
       else let '(rv, l) := unapply_loop un sel (S n) r (done + 1) in (rv, a :: l)
  else unapply_loop un sel (S n) r done.
Proof.
  cbn [unapply_loop]. unfold elig. destruct (po_patch o); cbn [negb andb orb]; [reflexivity|].
  destruct (po_applied o); cbn [negb andb orb]; [reflexivity|].
  destruct (po_target o); cbn [negb andb orb]; [|reflexivity].
  destruct (should_unapply o sel); reflexivity.
Qed.

Lemma unapply_all un sel : forall os n done,
  (forall a, In a (elig_list sel n os) -> 0 <= un (ua_obj a)) ->
  unapply_loop un sel n os done = (done + zlen (elig_list sel n os), elig_list sel n os).
Proof.
  induction os as [|o r IH]; intros n done H.
  - cbn. rewrite Z.add_0_r. reflexivity.
  - rewrite unapply_cons. cbn [elig_list] in *. destruct (elig sel o).
    + cbn zeta. pose proof (H _ (or_introl eq_refl)) as H0. cbn [ua_obj] in H0.
      replace (un n <? 0) with false by lia.
      rewrite IH by (intros a Ha; apply H; right; exact Ha).
      rewrite zlen_cons. f_equal. lia.
    + apply IH. exact H.
Qed.

Lemma unapply_prefix un sel : forall os n done, 0 <= done ->
  exists rest, elig_list sel n os = snd (unapply_loop un sel n os done) ++ rest /\
    (fst (unapply_loop un sel n os done) < 0 ->
       exists l a, snd (unapply_loop un sel n os done) = l ++ [a] /\ un (ua_obj a) < 0) /\
    (0 <= fst (unapply_loop un sel n os done) -> rest = []).
Proof.
  induction os as [|o r IH]; intros n done D.
  - exists []. cbn. repeat split; auto. lia.
  - rewrite unapply_cons. cbn [elig_list]. destruct (elig sel o).
    + cbn zeta. destruct (Z.ltb_spec (un n) 0) as [U|U].
      * eexists. cbn [fst snd app]. split; [reflexivity|]. split; [|lia].
        intros _. exists [], {| ua_obj := n; ua_kpta := po_kpta o; ua_hdr := po_hdr o |}. auto.
      * destruct (IH (S n) (done + 1) ltac:(lia)) as (rest & E & F & G).
        destruct (unapply_loop un sel (S n) r (done + 1)) as [rv l]. cbn [fst snd] in *.
        exists rest. rewrite E. split; [reflexivity|]. split; [|exact G].
        intros N. destruct (F N) as (l' & a & -> & Ua). eexists (_ :: l'), a. cbn. auto.
    + apply IH. exact D.
Qed.

Lemma elig_list_in sel : forall os n a, In a (elig_list sel n os) <->
  exists k o, nth_error os k = Some o /\ elig sel o = true /\
    a = {| ua_obj := n + k; ua_kpta := po_kpta o; ua_hdr := po_hdr o |}.
Proof.
  induction os as [|o r IH]; intros n a; cbn [elig_list].
  - split; [intros []|]. intros (k & o & E & _). destruct k; discriminate.
  - assert (Step : (exists k o', nth_error r k = Some o' /\ elig sel o' = true /\
        a = {| ua_obj := S n + k; ua_kpta := po_kpta o'; ua_hdr := po_hdr o' |}) <->
      (exists k o', nth_error (o :: r) (S k) = Some o' /\ elig sel o' = true /\
        a = {| ua_obj := n + S k; ua_kpta := po_kpta o'; ua_hdr := po_hdr o' |})).
    { split; intros (k & o' & E & L & ->); exists k, o'; cbn [nth_error] in *; repeat split; auto;
        f_equal; lia. }
    destruct (elig sel o) eqn:El; cbn [In]; rewrite IH, Step; split.
    + intros [<-|(k & o' & E & L & ->)].
      * exists 0%nat, o. rewrite Nat.add_0_r. auto.
      * exists (S k), o'. auto.
    + intros ([|k] & o' & E & L & ->).
      * left. cbn in E. injection E as <-. rewrite Nat.add_0_r. reflexivity.
      * right. exists k, o'. auto.
    + intros (k & o' & E & L & ->). exists (S k), o'. auto.
    + intros ([|k] & o' & E & L & ->).
      * cbn in E. injection E as <-. congruence.
      * exists k, o'. auto.
Qed.

Lemma elig_list_nodup sel : forall os n, NoDup (map ua_obj (elig_list sel n os)).
Proof.
  induction os as [|o r IH]; intros n; cbn [elig_list]; [constructor|].
  destruct (elig sel o); [|apply IH]. cbn [map ua_obj]. constructor; [|apply IH].
  intros H. apply in_map_iff in H as (a & E & H). apply elig_list_in in H as (k & o' & _ & _ & ->).
  cbn in E. lia.
Qed.

(** ** What is known of the objects after associating *)
Section After.
Variable os0 : list pobj.
Hypothesis Fresh : fresh os0.
Variable pid : list Z.
Let js := seq 0 (length os0).

Lemma after_winv : exists os', assoc_loop js (Some pid) os0 0 0 =
    (os', count (owned os0) js, count (chosen os0 (Some pid)) js) /\ winv os0 (Some pid) (rev js) os'.
Proof.
  destruct (assoc_spec os0 Fresh (Some pid) js [] os0 0 0 (winv_start os0 Fresh (Some pid)))
    as (os' & E & W).
  exists os'. rewrite E, app_nil_r in *. rewrite !Z.add_0_l. auto.
Qed.

Lemma owner_spec j i a h : owner os0 j = Some (i, a, h) ->
  (exists b id, is_patch_at os0 j b id a h) /\ exists o, is_elf_at os0 i (hdr_bid h) o.
Proof.
  unfold owner. destruct (nth_error os0 j) as [p|] eqn:E; [|discriminate].
  destruct (po_patch p) eqn:P; [|discriminate]. destruct (po_hdr p) as [h'|] eqn:H; [|discriminate].
  destruct (po_vmas p) as [|v r] eqn:V; [discriminate|].
  destruct (first_index (has_bid (hdr_bid h')) os0) as [i'|] eqn:F; [|discriminate].
  intros X. injection X as -> <- ->. split.
  - exists (hdr_bid h), (hdr_id h), p, v, r. auto 10.
  - apply first_index_some in F as (o & Eo & Fo & _). exists o. unfold has_bid, get_buildid in Fo.
    split; [exact Eo|]. destruct (po_elf o); [|discriminate]. split; [reflexivity|].
    destruct (po_bid o); [|discriminate]. apply list_eqb_eq in Fo. congruence.
Qed.

(** Conversely, a patch for a mapped file has an owner. *)
Lemma owner_exists j b id a h i o : is_patch_at os0 j b id a h -> is_elf_at os0 i b o ->
  exists i', owner os0 j = Some (i', a, h) /\ exists o', is_elf_at os0 i' b o'.
Proof.
  intros (p & v & r & E & P & H & V & <- & Eb & Ei) (Eo & El & Bo). unfold owner.
  rewrite E, P, H, V. destruct (first_index (has_bid (hdr_bid h)) os0) as [i'|] eqn:F.
  - exists i'. split; [reflexivity|]. apply first_index_some in F as (o' & Eo' & Fo' & _).
    exists o'. unfold has_bid, get_buildid in Fo'. split; [exact Eo'|].
    destruct (po_elf o'); [|discriminate]. split; [reflexivity|].
    destruct (po_bid o'); [|discriminate]. apply list_eqb_eq in Fo'. congruence.
  - pose proof (first_index_none _ _ o F (nth_error_In _ _ Eo)) as N.
    unfold has_bid, get_buildid in N. rewrite El, Bo, Eb in N.
    rewrite list_eqb_refl in N. discriminate.
Qed.

Lemma should_unapply_spec o b sel : po_elf o = true -> po_bid o = Some b ->
  (should_unapply o sel = true <-> requested sel b o).
Proof.
  intros E B. unfold should_unapply, requested, get_buildid. rewrite E, B.
  destruct sel as [|s sel]; [tauto|]. set (l := s :: sel).
  assert (G : existsb (fun s0 => list_eqb b s0 || list_eqb (po_name o) s0) l = true <->
              In b l \/ In (po_name o) l).
  { rewrite existsb_exists. split.
    - intros (x & I & H). apply orb_prop in H as [H|H]; apply list_eqb_eq in H; subst x; auto.
    - intros [H|H]; [exists b|exists (po_name o)]; rewrite list_eqb_refl, ?Bool.orb_true_r; auto. }
  rewrite G. split; [auto|]. intros [H|H]; [discriminate|exact H].
Qed.

Lemma requested_static sel b o o' : static o o' -> requested sel b o' <-> requested sel b o.
Proof. intros (_ & _ & N & _). unfold requested. rewrite N. tauto. Qed.

Lemma in_js j : (j < length os0)%nat -> In j (rev js).
Proof. intros H. apply -> in_rev. apply in_seq. lia. Qed.

Lemma ids_nonempty i j : In j (rev js) -> owns os0 i j = true -> ids_of os0 i (rev js) <> [].
Proof.
  generalize (rev js). intros l. induction l as [|k l IH]; [intros []|].
  intros I O. cbn [ids_of]. destruct (owns os0 i k) eqn:Ok.
  - destruct (existsb _ (ids_of os0 i l)) eqn:Ex.
    + intros C. rewrite C in Ex. discriminate.
    + intros C. apply app_eq_nil in C as [_ C]. discriminate.
  - destruct I as [->|I]; [congruence|]. exact (IH I O).
Qed.

(** Every action is for a file that carries the patch and was asked for. *)
Lemma action_sound os' sel a : winv os0 (Some pid) (rev js) os' -> In a (elig_list sel 0 os') ->
  exists j b h o, is_patch_at os0 j b pid (ua_kpta a) h /\ ua_hdr a = Some (firstn 504 h) /\
    is_elf_at os0 (ua_obj a) b o /\ requested sel b o.
Proof.
  intros W H. apply elig_list_in in H as (k & o & E & El & ->). cbn [ua_obj ua_kpta ua_hdr Nat.add].
  destruct W as [L W]. assert (Lk : (k < length os0)%nat).
  { rewrite <- L. apply nth_error_Some. congruence. }
  destruct (nth_error os0 k) as [o0|] eqn:E0; [|apply nth_error_None in E0; lia].
  destruct (W k o0 o E0 E) as (S & _ & _ & M).
  unfold elig in El. apply andb_prop in El as [El Su]. apply andb_prop in El as [El T].
  destruct (first_index (fun j => owns os0 k j && chosen os0 (Some pid) j) (rev js)) as [n|] eqn:F.
  2:{ destruct M as [M _]. congruence. }
  destruct M as (j & a & h & Ej & O & _ & Ka & Ha).
  apply first_index_some in F as (j' & Ej' & Fj & _). rewrite Ej in Ej'. apply some_inj in Ej'. subst j'.
  apply andb_prop in Fj as [_ Ch]. unfold chosen in Ch. rewrite O in Ch. apply list_eqb_eq in Ch.
  destruct (owner_spec j k a h O) as ((b & id & Pj) & (o1 & Eo)).
  pose proof Eo as (Eo0 & Elf & Bo). rewrite E0 in Eo0. apply some_inj in Eo0. subst o1.
  exists j, (hdr_bid h), h, o0. subst a.
  destruct Pj as (p & v & r & Q1 & Q2 & Q3 & Q4 & Q5 & Q6 & Q7).
  split; [exists p, v, r; auto 10|]. split; [exact Ha|]. split; [exact Eo|].
  destruct S as (_ & _ & Sn & _ & Se & _ & Sb).
  assert (R : requested sel (hdr_bid h) o).
  { apply should_unapply_spec; [congruence|congruence|exact Su]. }
  unfold requested in *. rewrite Sn in R. exact R.
Qed.

Lemma action_complete os' sel j b a h i o : distinct_bids os0 -> distinct_patches os0 ->
  winv os0 (Some pid) (rev js) os' ->
  is_patch_at os0 j b pid a h -> is_elf_at os0 i b o -> requested sel b o ->
  In {| ua_obj := i; ua_kpta := a; ua_hdr := Some (firstn 504 h) |} (elig_list sel 0 os').
Proof.
  intros Db Dp [L W] Pj Ei R.
  destruct (owner_exists j b pid a h i o Pj Ei) as (i' & O & o' & Ei').
  assert (i' = i) by exact (Db _ _ _ _ _ Ei' Ei). subst i'. clear Ei' o'.
  pose proof Ei as (E0 & Elf & Bo).
  assert (Lk : (i < length os0)%nat) by (apply nth_error_Some; congruence).
  destruct (nth_error os' i) as [o'|] eqn:E; [|apply nth_error_None in E; lia].
  destruct (W i o o' E0 E) as (S & _ & A & M).
  assert (Jl : (j < length os0)%nat).
  { destruct Pj as (p & v & r & Q & _). apply nth_error_Some. congruence. }
  assert (Oi : owns os0 i j = true) by (unfold owns; rewrite O; apply Nat.eqb_refl).
  assert (Cj : chosen os0 (Some pid) j = true).
  { unfold chosen. rewrite O. destruct Pj as (p & v & r & _ & _ & _ & _ & _ & _ & Q). rewrite Q.
    apply list_eqb_refl. }
  destruct (first_index (fun j => owns os0 i j && chosen os0 (Some pid) j) (rev js)) as [n|] eqn:F.
  2:{ pose proof (first_index_none _ _ j F (in_js j Jl)) as C. cbv beta in C. rewrite Oi, Cj in C. discriminate. }
  destruct M as (j' & a' & h' & Ej & O' & T & Ka & Ha).
  apply first_index_some in F as (j2 & Ej2 & Fj & _). rewrite Ej in Ej2. apply some_inj in Ej2. subst j2.
  apply andb_prop in Fj as [_ Ch]. unfold chosen in Ch. rewrite O' in Ch. apply list_eqb_eq in Ch.
  destruct (owner_spec j' i a' h' O') as ((b' & id' & Pj') & (o1 & Eo1)).
  assert (b' = hdr_bid h' /\ id' = hdr_id h') as [-> ->].
  { destruct Pj' as (p & v & r & _ & _ & _ & _ & _ & Q6 & Q7). auto. }
  assert (hdr_bid h' = b).
  { destruct Eo1 as (Eo1 & _ & Bo1). rewrite E0 in Eo1. apply some_inj in Eo1. subst o1. congruence. }
  assert (j' = j).
  { apply (Dp j' j b pid a' a h' h); [|exact Pj]. congruence. }
  subst j'. rewrite O in O'. injection O' as <- <-.
  apply elig_list_in. exists i, o'. split; [exact E|]. split; [|cbn [Nat.add]; rewrite Ka, Ha; reflexivity].
  unfold elig. rewrite T.
  destruct S as (_ & _ & Sn & _ & Se & Sp & Sb).
  assert (Np : po_patch o = false).
  { destruct (po_patch o) eqn:Pe; [|reflexivity]. unfold fresh in Fresh. rewrite Forall_forall in Fresh.
    destruct (Fresh o (nth_error_In _ _ E0)) as (_ & _ & _ & FP & _). destruct (FP Pe). congruence. }
  rewrite Sp, Np. rewrite (proj2 (should_unapply_spec o' b sel ltac:(congruence) ltac:(congruence))).
  - destruct (po_applied o') eqn:Ea; [|reflexivity]. exfalso.
    apply (ids_nonempty i j (in_js j Jl) Oi). congruence.
  - unfold requested in *. rewrite Sn. exact R.
Qed.

(** A target exists exactly if the patch is found for a mapped file. *)
Lemma targets_zero : count (chosen os0 (Some pid)) js = 0 <->
  ~ exists j b a h i o, is_patch_at os0 j b pid a h /\ is_elf_at os0 i b o.
Proof.
  rewrite count_zero. split.
  - intros H (j & b & a & h & i & o & Pj & Ei).
    destruct (owner_exists j b pid a h i o Pj Ei) as (i' & O & _).
    assert (In j js).
    { apply in_seq. destruct Pj as (p & v & r & Q & _).
      assert (j < length os0)%nat by (apply nth_error_Some; congruence). lia. }
    specialize (H j H0). unfold chosen in H. rewrite O in H.
    destruct Pj as (p & v & r & _ & _ & _ & _ & _ & _ & Q). rewrite Q, list_eqb_refl in H. discriminate.
  - intros N j Hj. unfold chosen. destruct (owner os0 j) as [[[i a] h]|] eqn:O; [|reflexivity].
    destruct (list_eqb (hdr_id h) pid) eqn:C; [|reflexivity]. apply list_eqb_eq in C. exfalso. apply N.
    destruct (owner_spec j i a h O) as ((b & id & Pj) & (o & Eo)).
    destruct Pj as (p & v & r & Q1 & Q2 & Q3 & Q4 & Q5 & Q6 & Q7).
    exists j, (hdr_bid h), a, h, i, o. split; [exists p, v, r; auto 10|exact Eo].
Qed.
End After.

Lemma unpatch_sound un pid sel os a : fresh os -> In a (snd (unpatch un pid sel os)) ->
  exists j b h o, is_patch_at os j b pid (ua_kpta a) h /\ ua_hdr a = Some (firstn 504 h) /\
    is_elf_at os (ua_obj a) b o /\ requested sel b o.
Proof.
  intros Fr. unfold unpatch, associate. destruct (after_winv os Fr pid) as (os' & E & W). rewrite E.
  destruct (count (chosen os (Some pid)) (seq 0 (length os)) =? 0); [intros []|].
  intros H. destruct (unapply_prefix un sel os' 0 0 ltac:(lia)) as (rest & Er & _).
  apply (action_sound os pid os' sel a W). rewrite Er. apply in_or_app. left. exact H.
Qed.

Lemma unpatch_once un pid sel os : fresh os -> NoDup (map ua_obj (snd (unpatch un pid sel os))).
Proof.
  intros Fr. unfold unpatch, associate. destruct (after_winv os Fr pid) as (os' & E & W). rewrite E.
  destruct (count (chosen os (Some pid)) (seq 0 (length os)) =? 0); [constructor|].
  destruct (unapply_prefix un sel os' 0 0 ltac:(lia)) as (rest & Er & _).
  pose proof (elig_list_nodup sel os' 0) as N. rewrite Er, map_app in N.
  revert N. generalize (map ua_obj rest). intros r N.
  induction (map ua_obj (snd (unapply_loop un sel 0 os' 0))) as [|x l IHl]; [constructor|].
  cbn [app] in N. inversion N as [|? ? Nx N']; subst. constructor; [|apply IHl, N'].
  intros C. apply Nx. apply in_or_app. left. exact C.
Qed.

Lemma unpatch_complete un pid sel os j b a h i o : fresh os -> distinct_bids os ->
  distinct_patches os -> is_patch_at os j b pid a h -> is_elf_at os i b o -> requested sel b o ->
  0 <= fst (unpatch un pid sel os) ->
  In {| ua_obj := i; ua_kpta := a; ua_hdr := Some (firstn 504 h) |} (snd (unpatch un pid sel os)).
Proof.
  intros Fr Db Dp Pj Ei R. unfold unpatch, associate.
  destruct (after_winv os Fr pid) as (os' & E & W). rewrite E.
  destruct (Z.eqb_spec (count (chosen os (Some pid)) (seq 0 (length os))) 0) as [C|C].
  { exfalso. apply (proj1 (targets_zero os pid) C). exists j, b, a, h, i, o. auto. }
  intros P. destruct (unapply_prefix un sel os' 0 0 ltac:(lia)) as (rest & Er & _ & G).
  rewrite (G P), app_nil_r in Er. rewrite <- Er.
  exact (action_complete os Fr pid os' sel j b a h i o Db Dp W Pj Ei R).
Qed.

Lemma unpatch_not_found un pid sel os : fresh os ->
  ~ (exists j b a h i o, is_patch_at os j b pid a h /\ is_elf_at os i b o) ->
  unpatch un pid sel os = (-1, []).
Proof.
  intros Fr N. unfold unpatch, associate. destruct (after_winv os Fr pid) as (os' & E & W). rewrite E.
  rewrite (proj2 (targets_zero os pid) N). reflexivity.
Qed.

Lemma unpatch_count un pid sel os : fresh os -> (forall i, 0 <= un i) ->
  (exists j b a h i o, is_patch_at os j b pid a h /\ is_elf_at os i b o) ->
  fst (unpatch un pid sel os) = zlen (snd (unpatch un pid sel os)).
Proof.
  intros Fr U Ex. unfold unpatch, associate. destruct (after_winv os Fr pid) as (os' & E & W). rewrite E.
  destruct (Z.eqb_spec (count (chosen os (Some pid)) (seq 0 (length os))) 0) as [C|C].
  { exfalso. exact (proj1 (targets_zero os pid) C Ex). }
  rewrite unapply_all by (intros; apply U). cbn [fst snd]. lia.
Qed.

Lemma unpatch_failed un pid sel os : fresh os -> fst (unpatch un pid sel os) < 0 ->
  snd (unpatch un pid sel os) = [] \/
  exists l a, snd (unpatch un pid sel os) = l ++ [a] /\ un (ua_obj a) < 0.
Proof.
  intros Fr. unfold unpatch, associate. destruct (after_winv os Fr pid) as (os' & E & W). rewrite E.
  destruct (count (chosen os (Some pid)) (seq 0 (length os)) =? 0); [auto|].
  intros N. right. destruct (unapply_prefix un sel os' 0 0 ltac:(lia)) as (rest & Er & F & _). auto.
Qed.
