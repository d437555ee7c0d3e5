From Coq Require Import String.
From Verif Require Import Base BaseProofs StorageModel StorageProofs ProcModel ProcSpec.
Open Scope list_scope.

(** ** Lists *)
Lemma upd_length {A} (l : list A) i x : length (upd l i x) = length l.
Proof. revert i. induction l; intros [|i]; cbn; auto. Qed.
Lemma upd_same {A} (l : list A) i x y : nth_error l i = Some y -> nth_error (upd l i x) i = Some x.
Proof. revert i. induction l; intros [|i]; cbn; auto; discriminate. Qed.
Lemma upd_other {A} (l : list A) i j x : i <> j -> nth_error (upd l i x) j = nth_error l j.
Proof. revert i j. induction l; intros [|i] [|j] N; cbn; auto; congruence. Qed.

Lemma first_index_some {A} (f : A -> bool) l i : first_index f l = Some i ->
  exists a, nth_error l i = Some a /\ f a = true /\
    forall k b, (k < i)%nat -> nth_error l k = Some b -> f b = false.
Proof.
  revert i. induction l as [|a l IH]; intros i E; cbn in E; [discriminate|].
  destruct (f a) eqn:F.
  - injection E as <-. exists a. repeat split; auto. intros; lia.
  - destruct (first_index f l) as [i'|] eqn:E'; [|discriminate]. injection E as <-.
    destruct (IH _ eq_refl) as (b & N & Fb & L). exists b. repeat split; auto.
    intros [|k] c Lk Nk; cbn in Nk; [congruence|]. apply (L k); auto. lia.
Qed.
Lemma first_index_none {A} (f : A -> bool) l a : first_index f l = None -> In a l -> f a = false.
Proof.
  induction l as [|b l IH]; intros E I; cbn in E; [destruct I|]. destruct (f b) eqn:F; [discriminate|].
  destruct (first_index f l); [discriminate|]. destruct I as [->|I]; auto.
Qed.
Lemma first_index_ext {A} (f g : A -> bool) l l' : length l = length l' ->
  (forall k a b, nth_error l k = Some a -> nth_error l' k = Some b -> f a = g b) ->
  first_index f l = first_index g l'.
Proof.
  revert l'. induction l as [|a l IH]; intros [|b l'] L H; cbn in L; try discriminate; [reflexivity|].
  cbn. rewrite (H 0%nat a b eq_refl eq_refl). destruct (g b); [reflexivity|].
  rewrite (IH l'); auto. intros k x y Hx Hy. exact (H (Datatypes.S k) x y Hx Hy).
Qed.

Lemma list_eqb_refl a : list_eqb a a = true.
Proof. apply list_eqb_eq. reflexivity. Qed.

Ltac triple := match goal with |- (_, ?b, ?c) = (_, ?b', ?c') =>
  replace b' with b by lia; replace c' with c by lia; reflexivity end.

(** ** Associating *)

Definition static (o o' : pobj) : Prop :=
  po_dev o' = po_dev o /\ po_inode o' = po_inode o /\ po_name o' = po_name o /\
  po_vmas o' = po_vmas o /\ po_elf o' = po_elf o /\ po_patch o' = po_patch o /\ po_bid o' = po_bid o.
Lemma static_refl o : static o o.
Proof. unfold static. tauto. Qed.
Lemma static_trans a b c : static a b -> static b c -> static a c.
Proof. unfold static. intuition congruence. Qed.

Section Assoc.
Variable os0 : list pobj.
Hypothesis Fresh : fresh os0.
Variable pid : option (list Z).

(** The file the patch number [j] belongs to, and the patch's data. *)
Definition owner (j : nat) : option (nat * Z * list Z) :=
  match nth_error os0 j with
  | Some p => match po_patch p, po_hdr p, po_vmas p with
              | true, Some h, v :: _ =>
                  match first_index (has_bid (hdr_bid h)) os0 with
                  | Some i => Some (i, v_start v, h) | None => None end
              | _, _, _ => None
              end
  | None => None
  end.
Definition owns (i j : nat) : bool :=
  match owner j with Some (i', _, _) => Nat.eqb i i' | None => false end.
Definition chosen (j : nat) : bool :=
  match owner j, pid with Some (_, _, h), Some id => list_eqb (hdr_id h) id | _, _ => false end.
Fixpoint last_of {A} (f : A -> bool) (l : list A) : option A :=
  match l with
  | [] => None
  | a :: r => match last_of f r with Some x => Some x | None => if f a then Some a else None end
  end.
(** The ids met so far, first occurrences. *)
Fixpoint ids_of (i : nat) (done : list nat) : list nat :=
  match done with
  | [] => []
  | j :: r => (* done is in reverse order *)
      let l := ids_of i r in
      if owns i j then
        if existsb (fun k => match patch_id_of os0 k, patch_id_of os0 j with
                             | Some x, Some y => list_eqb x y | _, _ => false end) l
        then l else l ++ [j]
      else l
  end.

Definition want (i : nat) (done : list nat) (o0 o : pobj) : Prop :=
  static o0 o /\ (po_patch o0 = true -> o = o0) /\
  po_applied o = ids_of i done /\
  match first_index (fun j => owns i j && chosen j) done with
  | None => po_target o = false /\ po_hdr o = po_hdr o0
  | Some k => exists j a h, nth_error done k = Some j /\ owner j = Some (i, a, h) /\
       po_target o = true /\ po_kpta o = a /\ po_hdr o = Some (firstn 504 h)
  end.
Definition winv (done : list nat) (os : list pobj) : Prop :=
  length os = length os0 /\
  forall i o0 o, nth_error os0 i = Some o0 -> nth_error os i = Some o -> want i done o0 o.

Lemma has_bid_static b o o' : static o o' -> has_bid b o' = has_bid b o.
Proof.
  intros (_ & _ & _ & _ & E & _ & B). unfold has_bid, get_buildid. rewrite E, B. reflexivity.
Qed.

Lemma winv_first done os b : winv done os -> first_index (has_bid b) os = first_index (has_bid b) os0.
Proof.
  intros [L H]. apply first_index_ext; [exact L|]. intros k o o0 Ho Ho0.
  destruct (H k o0 o Ho0 Ho) as (S & _). apply has_bid_static, S.
Qed.

Lemma winv_nth done os j : winv done os -> match nth_error os0 j with
  | Some o0 => exists o, nth_error os j = Some o /\ want j done o0 o
  | None => nth_error os j = None end.
Proof.
  intros [L H]. destruct (nth_error os0 j) as [o0|] eqn:E.
  - destruct (nth_error os j) as [o|] eqn:E'.
    + exists o. split; [reflexivity|]. apply (H j o0 o E E').
    + apply nth_error_None in E'. assert (j < length os0)%nat by (apply nth_error_Some; congruence). lia.
  - apply nth_error_None in E. apply nth_error_None. lia.
Qed.

Lemma patch_id_same done os j : winv done os -> (exists o0, nth_error os0 j = Some o0 /\ po_patch o0 = true) ->
  patch_id_of os j = patch_id_of os0 j.
Proof.
  intros W (o0 & E & P). pose proof (winv_nth done os j W) as N. rewrite E in N.
  destruct N as (o & E' & _ & Q & _). unfold patch_id_of. rewrite E, E', (Q P). reflexivity.
Qed.

Lemma owns_patch i j : owns i j = true -> exists o0, nth_error os0 j = Some o0 /\ po_patch o0 = true.
Proof.
  unfold owns, owner. destruct (nth_error os0 j) as [p|]; [|discriminate].
  destruct (po_patch p) eqn:P; [|discriminate]. eauto.
Qed.

Lemma ids_of_owned i done k : In k (ids_of i done) -> owns i k = true /\ In k done.
Proof.
  induction done as [|j r IH]; cbn [ids_of]; [intros []|].
  destruct (owns i j) eqn:O.
  - destruct (existsb _ (ids_of i r)).
    + intros H. destruct (IH H). split; [assumption|right; assumption].
    + intros H. apply in_app_iff in H as [H|[<-|[]]].
      * destruct (IH H). split; [assumption|right; assumption].
      * split; [exact O|left; reflexivity].
  - intros H. destruct (IH H). split; [assumption|right; assumption].
Qed.

Lemma step_other done j i : owner j = None \/ owns i j = false ->
  forall o0 o, want i done o0 o -> want i (j :: done) o0 o.
Proof.
  intros N o0 o (S & P & A & M). assert (O : owns i j = false).
  { destruct N as [N|N]; [|exact N]. unfold owns. rewrite N. reflexivity. }
  split; [exact S|]. split; [exact P|]. cbn [ids_of first_index]. rewrite O. cbn [andb].
  split; [exact A|].
  destruct (first_index (fun j0 => owns i j0 && chosen j0) done) as [k|]; [|exact M].
  destruct M as (j' & a & h & Ej & M). exists j', a, h. cbn [nth_error]. auto.
Qed.

Lemma winv_skip done os j : owner j = None -> winv done os -> winv (j :: done) os.
Proof.
  intros N [L H]. split; [exact L|]. intros i o0 o E0 E. apply step_other; auto.
Qed.

Lemma add_applied_ids done os o0 o i j a h : winv done os -> nth_error os0 i = Some o0 ->
  nth_error os i = Some o -> owner j = Some (i, a, h) -> want i done o0 o ->
  po_applied (add_applied os o j (hdr_id h)) = ids_of i (j :: done) /\
  static o (add_applied os o j (hdr_id h)) /\
  po_target (add_applied os o j (hdr_id h)) = po_target o /\
  po_hdr (add_applied os o j (hdr_id h)) = po_hdr o /\
  po_kpta (add_applied os o j (hdr_id h)) = po_kpta o.
Proof.
  intros W E0 E O (S & P & A & M).
  assert (Oij : owns i j = true) by (unfold owns; rewrite O; apply Nat.eqb_refl).
  assert (Ij : patch_id_of os0 j = Some (hdr_id h)).
  { unfold owner in O. unfold patch_id_of. destruct (nth_error os0 j) as [p|]; [|discriminate].
    destruct (po_patch p), (po_hdr p) as [h'|], (po_vmas p) as [|v r]; try discriminate.
    destruct (first_index _ os0); [|discriminate]. injection O as _ _ ->. reflexivity. }
  cbn [ids_of]. rewrite Oij.
  assert (Ex : has_applied os o (hdr_id h) =
    existsb (fun k => match patch_id_of os0 k, patch_id_of os0 j with
                      | Some x, Some y => list_eqb x y | _, _ => false end) (ids_of i done)).
  { unfold has_applied. rewrite A.
    assert (G : forall l, (forall k, In k l -> owns i k = true) ->
      existsb (fun j0 => match patch_id_of os j0 with Some i0 => list_eqb i0 (hdr_id h) | None => false end) l =
      existsb (fun k => match patch_id_of os0 k with
        | Some x => match patch_id_of os0 j with Some y => list_eqb x y | None => false end
        | None => false end) l).
    { induction l as [|k l IH]; intros Hl; [reflexivity|]. cbn [existsb].
      rewrite IH by (intros; apply Hl; right; assumption).
      rewrite (patch_id_same done os k W) by (apply (owns_patch i), Hl; left; reflexivity).
      rewrite Ij. reflexivity. }
    apply G. intros k Hk. apply (ids_of_owned i done k Hk). }
  unfold add_applied. rewrite Ex.
  destruct (existsb _ (ids_of i done)).
  - repeat split; auto.
  - cbn. rewrite A. repeat split; auto.
Qed.

Lemma assoc_step done os j i a h o : winv done os -> owner j = Some (i, a, h) ->
  nth_error os i = Some o ->
  winv (j :: done)
    (upd os i (if chosen j
               then set_target (add_applied os o j (hdr_id h)) a (Some (firstn 504 h))
               else add_applied os o j (hdr_id h))).
Proof.
  intros W O E. pose proof W as [L H]. split; [rewrite upd_length; exact L|].
  intros k o0 o' E0 E'. destruct (Nat.eq_dec i k) as [->|N].
  - rewrite (upd_same _ _ _ _ E) in E'. apply some_inj in E'.
    pose proof (H k o0 o E0 E) as Wk.
    destruct (add_applied_ids done os o0 o k j a h W E0 E O Wk) as (A & S & T & Hh & K).
    assert (NP : po_patch o0 = true -> False).
    { intros P. unfold owner in O. destruct (nth_error os0 j) as [p|]; [|discriminate].
      destruct (po_patch p), (po_hdr p) as [h'|], (po_vmas p) as [|v r]; try discriminate.
      destruct (first_index (has_bid (hdr_bid h')) os0) as [i'|] eqn:F; [|discriminate].
      injection O as -> _ _. apply first_index_some in F as (x & Ex & Fx & _).
      rewrite E0 in Ex. apply some_inj in Ex. subst x. unfold has_bid, get_buildid in Fx.
      unfold fresh in Fresh. rewrite Forall_forall in Fresh.
      destruct (Fresh o0 (nth_error_In _ _ E0)) as (_ & _ & _ & FP & _).
      destruct (FP P) as [FE _]. rewrite FE in Fx. discriminate. }
    assert (Okj : owns k j = true) by (unfold owns; rewrite O; apply Nat.eqb_refl).
    destruct Wk as (S0 & _ & _ & M). subst o'. split; [|split; [|split]].
    + destruct (chosen j); [|exact (static_trans _ _ _ S0 S)].
      apply (static_trans _ _ _ S0). unfold static in *. cbn. exact S.
    + intros P. destruct (NP P).
    + destruct (chosen j); cbn [po_applied set_target]; exact A.
    + cbn [first_index]. rewrite Okj. cbn [andb]. destruct (chosen j).
      * exists j, a, h. cbn. auto.
      * destruct (first_index (fun j0 => owns k j0 && chosen j0) done) as [n|].
        -- destruct M as (j' & a' & h' & Ej & Oj & Tj & Kj & Hj). exists j', a', h'.
           rewrite T, Hh, K. auto.
        -- rewrite T, Hh. exact M.
  - rewrite upd_other in E' by exact N. apply step_other; [|apply (H k); assumption].
    right. unfold owns. rewrite O. apply Nat.eqb_neq. congruence.
Qed.

(** Counting. *)
Fixpoint count {A} (f : A -> bool) (l : list A) : Z :=
  match l with [] => 0 | a :: r => (if f a then 1 else 0) + count f r end.
Definition owned (j : nat) : bool := match owner j with Some _ => true | None => false end.

Lemma assoc_spec : forall js done os found targets, winv done os ->
  exists os', assoc_loop js pid os found targets =
      (os', found + count owned js, targets + count chosen js) /\ winv (rev js ++ done) os'.
Proof.
  induction js as [|j js IH]; intros done os found targets W.
  - exists os. cbn. rewrite !Z.add_0_r. auto.
  - cbn [assoc_loop rev count]. rewrite <- app_assoc. cbn [app].
    pose proof (winv_nth done os j W) as Nj.
    destruct (nth_error os0 j) as [p|] eqn:E0.
    2:{ rewrite Nj. assert (O : owner j = None) by (unfold owner; rewrite E0; reflexivity).
        unfold owned at 1, chosen at 1. rewrite O. rewrite !Z.add_0_l.
        apply IH. apply winv_skip; assumption. }
    destruct Nj as (p' & E & Sp & Pp & _). rewrite E.
    destruct (po_patch p) eqn:Pe.
    2:{ assert (P' : po_patch p' = false) by (destruct Sp as (_ & _ & _ & _ & _ & Q & _); congruence).
        rewrite P'. assert (O : owner j = None) by (unfold owner; rewrite E0, Pe; reflexivity).
        unfold owned at 1, chosen at 1. rewrite O. rewrite !Z.add_0_l.
        apply IH. apply winv_skip; assumption. }
    rewrite (Pp eq_refl), Pe. clear Pp.
    destruct (po_hdr p) as [h|] eqn:Eh.
    2:{ assert (O : owner j = None) by (unfold owner; rewrite E0, Pe, Eh; reflexivity).
        unfold owned at 1, chosen at 1. rewrite O. rewrite !Z.add_0_l.
        apply IH. apply winv_skip; assumption. }
    destruct (po_vmas p) as [|v vr] eqn:Ev.
    { assert (O : owner j = None) by (unfold owner; rewrite E0, Pe, Eh, Ev; reflexivity).
      unfold owned at 1, chosen at 1. rewrite O. rewrite !Z.add_0_l.
      apply IH. apply winv_skip; assumption. }
    rewrite (winv_first done os _ W).
    destruct (first_index (has_bid (hdr_bid h)) os0) as [i|] eqn:F.
    2:{ assert (O : owner j = None) by (unfold owner; rewrite E0, Pe, Eh, Ev, F; reflexivity).
        unfold owned at 1, chosen at 1. rewrite O. rewrite !Z.add_0_l.
        apply IH. apply winv_skip; assumption. }
    assert (O : owner j = Some (i, v_start v, h)) by (unfold owner; rewrite E0, Pe, Eh, Ev, F; reflexivity).
    destruct (first_index_some _ _ _ F) as (o0 & Eo0 & _ & _).
    pose proof (winv_nth done os i W) as Ni. rewrite Eo0 in Ni. destruct Ni as (o & Eo & _).
    rewrite Eo. pose proof (assoc_step done os j i (v_start v) h o W O Eo) as W'.
    unfold owned at 1. rewrite O. unfold chosen at 1. unfold chosen in W' at 1. rewrite O in *.
    destruct pid as [id|].
    + destruct (list_eqb (hdr_id h) id).
      * destruct (IH (j :: done) _ (found + 1) (targets + 1) W') as (os' & R & W2).
        exists os'. rewrite R. split; [|exact W2]. triple.
      * destruct (IH (j :: done) _ (found + 1) targets W') as (os' & R & W2).
        exists os'. rewrite R. split; [|exact W2]. triple.
    + destruct (IH (j :: done) _ (found + 1) targets W') as (os' & R & W2).
      exists os'. rewrite R. split; [|exact W2]. triple.
Qed.

Lemma winv_start : winv [] os0.
Proof.
  split; [reflexivity|]. intros i o0 o E0 E. rewrite E0 in E. apply some_inj in E. subst o.
  unfold fresh in Fresh. rewrite Forall_forall in Fresh.
  destruct (Fresh o0 (nth_error_In _ _ E0)) as (T & A & _). split; [apply static_refl|].
  split; [auto|]. split; [exact A|]. cbn. auto.
Qed.

Lemma count_zero {A} (f : A -> bool) l : count f l = 0 <-> forall a, In a l -> f a = false.
Proof.
  assert (P : forall l, 0 <= count f l).
  { clear. induction l as [|a l IH]; cbn [count]; [lia|]. destruct (f a); lia. }
  induction l as [|a l IH]; cbn [count].
  - split; [intros _ a []|reflexivity].
  - specialize (P l). split.
    + intros H b [<-|I]; destruct (f a) eqn:E; try lia; auto. apply IH; [lia|exact I].
    + intros H. rewrite (H a (or_introl eq_refl)). rewrite (proj2 IH); [reflexivity|].
      intros b I. apply H. right. exact I.
Qed.
End Assoc.
