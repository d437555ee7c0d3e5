From Coq Require Import String Permutation.
From Verif Require Import Base BaseProofs StorageModel StorageProofs ProcModel ProcSpec ProcProofs.
Open Scope list_scope.

Lemma is_prefix_spec a b : is_prefix a b = true <-> exists x, b = a ++ x.
Proof.
  revert b. induction a as [|c a IH]; intros b; cbn [is_prefix].
  - split; [intros _; exists b; reflexivity|reflexivity].
  - destruct b as [|d b]; [split; [discriminate|intros (x & E); discriminate]|]. split.
    + intros H. apply andb_prop in H as [H1 H2]. apply Z.eqb_eq in H1. subst d.
      apply IH in H2 as (x & ->). exists x. reflexivity.
    + intros (x & E). cbn [app] in E. injection E as -> ->. rewrite Z.eqb_refl. cbn [andb].
      apply IH. eauto.
Qed.

Lemma upto_nul_spec s t : Forall (fun c => c <> 0) s -> t <> [] ->
  (upto_nul t = s /\ (length s < length t)%nat <-> exists r, t = s ++ 0 :: r).
Proof.
  intros F _. revert t. induction F as [|c s Nc F IH]; intros t.
  - destruct t as [|d t]; cbn [upto_nul].
    + split; [intros [_ L]; cbn in L; lia|intros (r & E); discriminate].
    + destruct (Z.eqb_spec d 0) as [->|N].
      * split; [intros _; exists t; reflexivity|]. intros _. cbn. split; [reflexivity|lia].
      * split; [intros [E _]; discriminate|]. intros (r & E). cbn in E. congruence.
  - destruct t as [|d t]; cbn [upto_nul].
    + split; [intros [E _]; discriminate|intros (r & E); discriminate].
    + destruct (Z.eqb_spec d 0) as [->|N].
      * split; [intros [E _]; discriminate|]. intros (r & E). cbn in E. congruence.
      * split.
        -- intros [E L]. injection E as -> E. cbn in L.
           destruct (proj1 (IH t)) as (r & ->); [split; [exact E|lia]|]. exists r. reflexivity.
        -- intros (r & E). cbn in E. injection E as -> E.
           destruct (proj2 (IH t)) as [E' L]; [exists r; exact E|]. rewrite E'. split; [reflexivity|cbn; lia].
Qed.

(** What pread yields has 1024 bytes. *)
Definition reads_1024 (rd : Z -> option (list Z)) : Prop :=
  forall a b, rd a = Some b -> zlen b = 1024.

Lemma type_kpatch rd l : reads_1024 rd -> (get_object_type rd l = TKpatch <-> holds_patch rd l).
Proof.
  intros R. unfold get_object_type, holds_patch. destruct (rd (l_start l)) as [buf|] eqn:E.
  2:{ split; [discriminate|]. intros (_ & _ & _ & b & r & X & _). discriminate. }
  pose proof (R _ _ E) as Lb.
  assert (K : list_eqb (upto_nul buf) (str "KPATCH1") = true <-> exists r, buf = str "KPATCH1" ++ 0 :: r).
  { rewrite list_eqb_eq. rewrite <- upto_nul_spec.
    - split; [|intros [H _]; exact H]. intros H. split; [exact H|]. unfold zlen in Lb. cbn [length str map list_ascii_of_string]. lia.
    - repeat (apply Forall_cons; [discriminate|]). apply Forall_nil.
    - intros ->. cbn in Lb. lia. }
  destruct (_ && _ && _ && _) eqn:C.
  - apply andb_prop in C as [C C4]. apply andb_prop in C as [C C3]. apply andb_prop in C as [C1 C2].
    apply Z.eqb_eq in C1. apply is_prefix_spec in C2. apply K in C4 as (r & ->).
    split; [|reflexivity]. intros _. split; [exact C1|]. split; [exact C2|].
    split; [unfold hdr_size in C3; lia|]. eauto.
  - split.
    + destruct (list_eqb (firstn 4 buf) _); discriminate.
    + intros (P & N & S & b & r & X & Y). apply some_inj in X. subst b.
      rewrite (proj2 K) in C by eauto. apply is_prefix_spec in N. rewrite N, P in C.
      unfold hdr_size in C. replace (504 <=? u64 (l_end l - l_start l)) with true in C by lia.
      discriminate.
Qed.

Lemma last_index_some {A} (f : A -> bool) l i : last_index f l = Some i ->
  exists a, nth_error l i = Some a /\ f a = true.
Proof.
  revert i. induction l as [|a l IH]; intros i E; cbn in E; [discriminate|].
  destruct (last_index f l) as [k|].
  - injection E as <-. destruct (IH _ eq_refl) as (b & N & F). exists b. auto.
  - destruct (f a) eqn:F; [|discriminate]. injection E as <-. exists a. auto.
Qed.
Lemma last_index_none {A} (f : A -> bool) l a : last_index f l = None -> In a l -> f a = false.
Proof.
  induction l as [|b l IH]; intros E I; cbn in E; [destruct I|].
  destruct (last_index f l); [discriminate|]. destruct (f b) eqn:F; [discriminate|].
  destruct I as [->|I]; auto.
Qed.

Lemma flat_map_upd {A B} (f : A -> list B) l i a a' x : nth_error l i = Some a -> f a' = f a ++ [x] ->
  Permutation (flat_map f (upd l i a')) (flat_map f l ++ [x]).
Proof.
  revert i. induction l as [|b l IH]; intros [|i] E F; cbn in E; try discriminate.
  - injection E as ->. cbn [upd flat_map]. rewrite F, <- !app_assoc.
    apply Permutation_app_head. apply Permutation_app_comm.
  - cbn [upd flat_map]. rewrite <- app_assoc. apply Permutation_app_head. apply IH; assumption.
Qed.
Lemma in_upd {A} (l : list A) i (a x b : A) : nth_error l i = Some a -> In b (upd l i x) ->
  b = x \/ In b l.
Proof.
  revert i. induction l as [|c l IH]; intros [|i] E H; cbn in *; try discriminate.
  - destruct H; auto.
  - destruct H as [H|H]; auto. destruct (IH i E H); auto.
Qed.
Lemma filter_upd {A} (f : A -> bool) l i (a x : A) : nth_error l i = Some a -> f a = false -> f x = false ->
  filter f (upd l i x) = filter f l.
Proof.
  revert i. induction l as [|c l IH]; intros [|i] E Fa Fx; cbn in *; try discriminate.
  - injection E as ->. rewrite Fa, Fx. reflexivity.
  - rewrite (IH i E Fa Fx). reflexivity.
Qed.
Lemma map_filter_upd {A B} (f : A -> bool) (g : A -> B) l i (a x : A) : nth_error l i = Some a ->
  f x = f a -> g x = g a -> map g (filter f (upd l i x)) = map g (filter f l).
Proof.
  revert i. induction l as [|c l IH]; intros [|i] E Fa Gx; cbn in *; try discriminate.
  - injection E as ->. rewrite Fa. destruct (f a); cbn; [rewrite Gx|]; reflexivity.
  - destruct (f c); cbn; rewrite (IH i E Fa Gx); reflexivity.
Qed.
Lemma nth_snoc {A} (l : list A) (x : A) i y : nth_error (l ++ [x]) i = Some y ->
  nth_error l i = Some y \/ (i = length l /\ y = x).
Proof.
  intros E. destruct (Nat.lt_ge_cases i (length l)) as [L|L].
  - rewrite nth_error_app1 in E by exact L. auto.
  - rewrite nth_error_app2 in E by exact L. right.
    destruct (i - length l)%nat as [|k] eqn:K; cbn in E; [|destruct k; discriminate].
    injection E as <-. split; [lia|reflexivity].
Qed.

Section Maps.
Variables (rd : Z -> option (list Z)) (ehdr_ok : list Z -> bool) (bid : Z -> option (list Z)).
Hypothesis R1024 : reads_1024 rd.

Definition ispatch (l : mline) : bool :=
  match get_object_type rd l with TKpatch => true | _ => false end.

Definition new_obj (l : mline) (name : list Z) (elf patch : bool) (h : option (list Z)) : pobj :=
  {| po_dev := l_dev l; po_inode := s32 (l_inode l); po_name := name;
     po_vmas := [line_vma l]; po_elf := elf; po_patch := patch; po_hdr := h;
     po_bid := bid (l_start l); po_kpta := 0; po_target := false; po_applied := [] |}.

(** The three ways a line is taken in. *)
Lemma add_cases os l os' : add_object_vma rd ehdr_ok bid os l = POk os' ->
  (exists buf, ispatch l = true /\ rd (l_start l) = Some buf /\
     os' = os ++ [new_obj l (kpatch_name buf) false true (Some buf)]) \/
  (exists i o, ispatch l = false /\ nth_error os i = Some o /\
     same_object (l_dev l) (s32 (l_inode l)) (line_name l) o = true /\
     os' = upd os i (add_vm_area o (line_vma l))) \/
  (exists elf, ispatch l = false /\
     (forall o, In o os -> same_object (l_dev l) (s32 (l_inode l)) (line_name l) o = false) /\
     os' = os ++ [new_obj l (line_name l) elf false None]).
Proof.
  unfold add_object_vma, ispatch. 
  assert (Rest : forall elf (P : bool), 
    match last_index (same_object (l_dev l) (s32 (l_inode l)) (line_name l)) os with
    | Some i => match nth_error os i with
                | Some o => POk (upd os i (add_vm_area o (line_vma l))) | None => PErr end
    | None => if P then POk (os ++ [new_obj l (line_name l) elf false None]) else PErr
    end = POk os' ->
    (exists i o, nth_error os i = Some o /\
     same_object (l_dev l) (s32 (l_inode l)) (line_name l) o = true /\
     os' = upd os i (add_vm_area o (line_vma l))) \/
    ((forall o, In o os -> same_object (l_dev l) (s32 (l_inode l)) (line_name l) o = false) /\
     os' = os ++ [new_obj l (line_name l) elf false None])).
  { intros elf P. destruct (last_index _ os) as [i|] eqn:F.
    - destruct (last_index_some _ _ _ F) as (o & E & S). rewrite E. intros H. injection H as <-.
      left. eauto.
    - destruct P; [|discriminate]. intros H. injection H as <-. right. split; [|reflexivity].
      intros o I. exact (last_index_none _ _ _ F I). }
  destruct (get_object_type rd l) eqn:T.
  - intros H. right. destruct (Rest false true H) as [(i & o & E & S & Q)|(N & Q)]; [left|right]; eauto 6.
  - intros H. right. 
    destruct (Rest true (ehdr_ok match rd (l_start l) with Some b => b | None => [] end) H)
      as [(i & o & E & S & Q)|(N & Q)]; [left|right]; eauto 6.
  - assert (exists buf, rd (l_start l) = Some buf) as (buf & E).
    { unfold get_object_type in T. destruct (rd (l_start l)); [eauto|discriminate]. }
    rewrite E. destruct (name_fits l buf); [|discriminate]. intros H. injection H as <-. left. eauto.
Qed.

Lemma add_vm_area_static o v : po_dev (add_vm_area o v) = po_dev o /\
  po_inode (add_vm_area o v) = po_inode o /\ po_name (add_vm_area o v) = po_name o /\
  po_elf (add_vm_area o v) = po_elf o /\ po_patch (add_vm_area o v) = po_patch o /\
  po_hdr (add_vm_area o v) = po_hdr o /\ po_bid (add_vm_area o v) = po_bid o /\
  po_target (add_vm_area o v) = po_target o /\ po_applied (add_vm_area o v) = po_applied o.
Proof. unfold add_vm_area. destruct (existsb _ _); cbn; auto 10. Qed.

Lemma same_belongs l o : same_object (l_dev l) (s32 (l_inode l)) (line_name l) o = true -> belongs l o.
Proof.
  unfold same_object, belongs. intros H. apply orb_prop in H as [H|H].
  - left. lia.
  - right. apply andb_prop in H as [H1 H2]. apply list_eqb_eq in H2. split; [lia|exact H2].
Qed.

(** Everything known after some lines. *)
Record minv (done : list mline) (os : list pobj) : Prop := {
  mi_fresh : fresh os;
  mi_perm : Permutation (flat_map po_vmas os) (map line_vma done);
  mi_belongs : forall o v, In o os -> In v (po_vmas o) ->
    exists l, In l done /\ line_vma l = v /\ belongs l o;
  mi_patches : map po_hdr (filter po_patch os) = map (fun l => rd (l_start l)) (filter ispatch done);
  mi_unique : (forall l, In l done -> ispatch l = true -> l_dev l = 0) ->
    forall i i' o o', nth_error os i = Some o -> nth_error os i' = Some o' ->
    po_dev o <> 0 -> po_inode o <> 0 -> po_dev o' = po_dev o -> po_inode o' = po_inode o -> i = i' }.

Lemma minv_step done os l os' : minv done os ->
  (forall k, In k done -> l_start k <> l_start l) ->
  add_object_vma rd ehdr_ok bid os l = POk os' -> minv (done ++ [l]) os'.
Proof.
  intros M D E. destruct (add_cases os l os' E) as [(buf & T & Eb & ->)|[(i & o & T & Ei & S & ->)|(elf & T & N & ->)]].
  - split.
    + apply Forall_app. split; [apply M|]. constructor; [|constructor]. cbn. repeat split; try discriminate; auto.
    + rewrite flat_map_app, map_app. apply Permutation_app; [apply M|]. cbn. reflexivity.
    + intros o v Io Iv. apply in_app_iff in Io as [Io|[<-|[]]].
      * destruct (mi_belongs _ _ M o v Io Iv) as (k & Ik & Ek). exists k. split; [apply in_or_app; auto|exact Ek].
      * cbn in Iv. destruct Iv as [<-|[]]. exists l. split; [apply in_or_app; right; left; reflexivity|].
        split; [reflexivity|]. left. cbn. auto.
    + rewrite !filter_app, !map_app, (mi_patches _ _ M). cbn [filter new_obj po_patch]. rewrite T.
      cbn. rewrite Eb. reflexivity.
    + intros A. assert (A' : forall k, In k done -> ispatch k = true -> l_dev k = 0).
      { intros k Ik. apply A. apply in_or_app. auto. }
      assert (Dl : l_dev l = 0) by (apply A; [apply in_or_app; right; left; reflexivity|exact T]).
      intros i i' o o' E1 E2 N1 N2 H1 H2.
      destruct (nth_snoc _ _ _ _ E1) as [E1'|[-> ->]]; [|cbn in N1; congruence].
      destruct (nth_snoc _ _ _ _ E2) as [E2'|[-> ->]]; [|cbn in H1; congruence].
      exact (mi_unique _ _ M A' i i' o o' E1' E2' N1 N2 H1 H2).
  - set (o' := add_vm_area o (line_vma l)). pose proof (add_vm_area_static o (line_vma l)) as St.
    fold o' in St. destruct St as (S1 & S2 & S3 & S4 & S5 & S6 & S7 & S8 & S9).
    assert (V : po_vmas o' = po_vmas o ++ [line_vma l]).
    { unfold o', add_vm_area. destruct (existsb (vma_same (line_vma l)) (po_vmas o)) eqn:X; [|reflexivity].
      exfalso. apply existsb_exists in X as (v & Iv & X).
      destruct (mi_belongs _ _ M o v (nth_error_In _ _ Ei) Iv) as (k & Ik & Ek & _).
      apply (D k Ik). unfold vma_same in X. subst v. cbn in X. lia. }
    split.
    + unfold fresh in *. rewrite Forall_forall. intros x Ix. pose proof (mi_fresh _ _ M) as Fr.
      unfold fresh in Fr. rewrite Forall_forall in Fr.
      destruct (in_upd _ _ _ _ _ Ei Ix) as [->|Ix']; [|apply Fr, Ix'].
      destruct (Fr o (nth_error_In _ _ Ei)) as (Q1 & Q2 & Q3 & Q4 & Q5).
      rewrite S8, S9, V, S5, S4, S6. split; [exact Q1|]. split; [exact Q2|].
      split; [intros C; apply app_eq_nil in C as [_ C]; discriminate|]. split; assumption.
    + rewrite map_app. cbn [map]. eapply Permutation_trans; [apply (flat_map_upd po_vmas os i o o' _ Ei V)|].
      apply Permutation_app_tail. apply M.
    + intros x v Ix Iv. destruct (in_upd _ _ _ _ _ Ei Ix) as [->|Ix'].
      * rewrite V in Iv. apply in_app_iff in Iv as [Iv|[<-|[]]].
        -- destruct (mi_belongs _ _ M o v (nth_error_In _ _ Ei) Iv) as (k & Ik & Ek & B).
           exists k. split; [apply in_or_app; auto|]. split; [exact Ek|].
           unfold belongs in *. rewrite S1, S2, S3. exact B.
        -- exists l. split; [apply in_or_app; right; left; reflexivity|]. split; [reflexivity|].
           pose proof (same_belongs l o S) as B. unfold belongs in *. rewrite S1, S2, S3. exact B.
      * destruct (mi_belongs _ _ M x v Ix' Iv) as (k & Ik & Ek). exists k. split; [apply in_or_app; auto|exact Ek].
    + rewrite filter_app, map_app. cbn [filter]. rewrite T. cbn [map]. rewrite app_nil_r, <- (mi_patches _ _ M).
      apply (map_filter_upd po_patch po_hdr os i o); [exact Ei|exact S5|exact S6].
    + intros A. assert (A' : forall k, In k done -> ispatch k = true -> l_dev k = 0).
      { intros k Ik. apply A. apply in_or_app. auto. }
      intros a b x y E1 E2 N1 N2 H1 H2.
      assert (G : forall a x, nth_error (upd os i o') a = Some x -> exists x0, nth_error os a = Some x0 /\
                 po_dev x0 = po_dev x /\ po_inode x0 = po_inode x).
      { intros c z Ez. destruct (Nat.eq_dec i c) as [<-|Nc].
        - rewrite (upd_same _ _ _ _ Ei) in Ez. apply some_inj in Ez. subst z. exists o. auto.
        - rewrite upd_other in Ez by exact Nc. exists z. auto. }
      destruct (G a x E1) as (x0 & X1 & X2 & X3). destruct (G b y E2) as (y0 & Y1 & Y2 & Y3).
      apply (mi_unique _ _ M A' a b x0 y0 X1 Y1); congruence.
  - split.
    + apply Forall_app. split; [apply M|]. constructor; [|constructor]. cbn. repeat split; try discriminate; auto.
    + rewrite flat_map_app, map_app. apply Permutation_app; [apply M|]. cbn. reflexivity.
    + intros o v Io Iv. apply in_app_iff in Io as [Io|[<-|[]]].
      * destruct (mi_belongs _ _ M o v Io Iv) as (k & Ik & Ek). exists k. split; [apply in_or_app; auto|exact Ek].
      * cbn in Iv. destruct Iv as [<-|[]]. exists l. split; [apply in_or_app; right; left; reflexivity|].
        split; [reflexivity|]. left. cbn. auto.
    + rewrite !filter_app, !map_app, (mi_patches _ _ M). cbn [filter new_obj po_patch]. rewrite T. reflexivity.
    + intros A. assert (A' : forall k, In k done -> ispatch k = true -> l_dev k = 0).
      { intros k Ik. apply A. apply in_or_app. auto. }
      intros i i' o o' E1 E2 N1 N2 H1 H2.
      destruct (nth_snoc _ _ _ _ E1) as [E1'|[-> ->]]; destruct (nth_snoc _ _ _ _ E2) as [E2'|[-> ->]].
      * exact (mi_unique _ _ M A' i i' o o' E1' E2' N1 N2 H1 H2).
      * exfalso. pose proof (N o (nth_error_In _ _ E1')) as C. unfold same_object in C.
        cbn in H1, H2. apply orb_false_elim in C as [C _]. lia.
      * exfalso. pose proof (N o' (nth_error_In _ _ E2')) as C. unfold same_object in C.
        cbn in *. apply orb_false_elim in C as [C _]. lia.
      * reflexivity.
Qed.

Lemma minv_nil : minv [] [].
Proof.
  split.
  - constructor.
  - constructor.
  - intros o v [].
  - reflexivity.
  - intros _ i i' o o' E. destruct i; discriminate.
Qed.

Lemma parse_minv : forall ls done os os', minv done os -> NoDup (map l_start (done ++ ls)) ->
  parse_maps rd ehdr_ok bid os ls = POk os' -> minv (done ++ ls) os'.
Proof.
  induction ls as [|l ls IH]; intros done os os' M D E; cbn [parse_maps] in E.
  - injection E as <-. rewrite app_nil_r. exact M.
  - destruct (add_object_vma rd ehdr_ok bid os l) as [os1| |] eqn:E1; try discriminate.
    replace (done ++ l :: ls) with ((done ++ [l]) ++ ls) by (rewrite <- app_assoc; reflexivity).
    apply (IH (done ++ [l]) os1 os'); [|rewrite <- app_assoc; exact D|exact E].
    apply (minv_step done os l os1 M); [|exact E1]. intros k Ik C.
    rewrite map_app in D. apply NoDup_remove_2 in D. apply D. apply in_or_app. left.
    rewrite <- C. apply in_map. exact Ik.
Qed.

(** Without any assumption: what comes out is fresh. *)
Lemma parse_fresh : forall ls os os', fresh os -> parse_maps rd ehdr_ok bid os ls = POk os' -> fresh os'.
Proof.
  induction ls as [|l ls IH]; intros os os' Fr E; cbn [parse_maps] in E; [injection E as <-; exact Fr|].
  destruct (add_object_vma rd ehdr_ok bid os l) as [os1| |] eqn:E1; try discriminate.
  apply (IH os1 os'); [|exact E].
  destruct (add_cases os l os1 E1) as [(buf & T & Eb & ->)|[(i & o & T & Ei & S & ->)|(elf & T & N & ->)]].
  - apply Forall_app. split; [exact Fr|]. constructor; [|constructor]. cbn. repeat split; try discriminate; auto.
  - unfold fresh in *. rewrite Forall_forall in *. intros x Ix.
    destruct (in_upd _ _ _ _ _ Ei Ix) as [->|Ix']; [|apply Fr, Ix'].
    destruct (add_vm_area_static o (line_vma l)) as (S1 & S2 & S3 & S4 & S5 & S6 & S7 & S8 & S9).
    destruct (Fr o (nth_error_In _ _ Ei)) as (Q1 & Q2 & Q3 & Q4 & Q5).
    rewrite S8, S9, S5, S4, S6. split; [exact Q1|]. split; [exact Q2|]. split; [|split; assumption].
    unfold add_vm_area. destruct (existsb _ _); [exact Q3|]. cbn. intros C.
    apply app_eq_nil in C as [_ C]. discriminate.
  - apply Forall_app. split; [exact Fr|]. constructor; [|constructor]. cbn. repeat split; try discriminate; auto.
Qed.

(** No write behind name_ if anonymous mappings have no path. *)
Lemma add_no_bad os l : (ispatch l = true -> l_name l = line_name l) ->
  add_object_vma rd ehdr_ok bid os l <> PBad.
Proof.
  intros H. unfold add_object_vma, ispatch in *. destruct (get_object_type rd l) eqn:T.
  - destruct (last_index _ os) as [i|]; [destruct (nth_error os i)|]; discriminate.
  - destruct (last_index _ os) as [i|]; [destruct (nth_error os i)|destruct (ehdr_ok _)]; discriminate.
  - unfold name_fits. rewrite (H eq_refl), Z.sub_diag.
    match goal with |- context[zlen (kpatch_name ?b)] => set (buf := b) end.
    assert (L : zlen (kpatch_name buf) <= 49).
    { unfold kpatch_name, zlen. pose proof (firstn_le_length 49 (str "[kpatch-" ++ hdr_bid buf ++ str "]")).
      lia. }
    replace (0 + (zlen (kpatch_name buf) + 1) <=? 256) with true by lia. discriminate.
Qed.
Lemma parse_no_bad : forall ls os, (forall l, In l ls -> ispatch l = true -> l_name l = line_name l) ->
  parse_maps rd ehdr_ok bid os ls <> PBad.
Proof.
  induction ls as [|l ls IH]; intros os H; cbn [parse_maps]; [discriminate|].
  pose proof (add_no_bad os l (H l (or_introl eq_refl))) as N.
  destruct (add_object_vma rd ehdr_ok bid os l); try congruence.
  apply IH. intros k Ik. apply H. right. exact Ik.
Qed.
End Maps.
