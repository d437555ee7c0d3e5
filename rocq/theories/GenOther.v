(** The pass over blocks that are neither functions nor variables: it splits some of them
    and joins them in order. *)
From Coq Require Import String Sorted.
From Verif Require Import Base BaseProofs StorageModel TextModel TextSpec TextProofs ParseModel ParseSpec ParseProofs
  RenameModel RenameSpec RenameProofs CmpModel CmpSpec CmpProofs GenModel GenSpec GenFrame GenSteps.
Open Scope list_scope.

Lemma ss_app {A} (R : A -> A -> Prop) x y : StronglySorted R (x ++ y) <->
  StronglySorted R x /\ StronglySorted R y /\ forall a b, In a x -> In b y -> R a b.
Proof.
  induction x as [|c x IH]; cbn [app].
  - split; [intros H; split; [constructor|]; split; auto; intros a b []|tauto].
  - split.
    + intros H. inversion H as [|? ? H1 H2]; subst. apply IH in H1 as (A1 & A2 & A3). rewrite Forall_app in H2. destruct H2 as (H2 & H3).
      split; [constructor; auto|]. split; auto. intros a b [<-|I] J; [|auto]. rewrite Forall_forall in H3. auto.
    + intros (H1 & H2 & H3). inversion H1 as [|? ? H4 H5]; subst. constructor.
      * apply IH. repeat split; auto. intros a b I J. apply H3; [now right|auto].
      * apply Forall_app. split; auto. apply Forall_forall. intros b J. apply H3; [now left|auto].
Qed.
Definition other (b : cblock) : bool := btype_beq (b_type b) BOther.
Definition others (f : gfile) : list cblock := filter other (g_blocks f).
Lemma in_order_starts n bs : in_order n bs -> NoDup (map b_start bs).
Proof.
  intros (S & F). induction S as [|b bs S IH H]; cbn [map]; constructor.
  - rewrite in_map_iff. intros (c & E & I). rewrite Forall_forall in F, H. pose proof (F b (or_introl eq_refl)). specialize (H c I). lia.
  - apply IH. now inversion F.
Qed.
(** One block of a file *)
Lemma at_block f b : NoDup (starts_of f) -> In b (g_blocks f) -> exists x y, g_blocks f = x ++ b :: y
  /\ (forall g, g_blocks (updb (b_start b) g f) = x ++ g b :: y)
  /\ (forall len, g_blocks (cblock_split (b_start b) len f) = x ++ split_block len b ++ y).
Proof.
  intros N I. apply in_split in I as (x & y & E). exists x, y. split; auto.
  unfold starts_of in N. rewrite E, map_app in N. cbn [map] in N. apply NoDup_remove in N as (_ & N).
  assert (Hx : forall c, In c x -> Nat.eqb (b_start c) (b_start b) = false).
  { intros c I. apply Nat.eqb_neq. intros X. apply N. apply in_or_app. left. rewrite <- X. now apply in_map. }
  assert (Hy : forall c, In c y -> Nat.eqb (b_start c) (b_start b) = false).
  { intros c I. apply Nat.eqb_neq. intros X. apply N. apply in_or_app. right. rewrite <- X. now apply in_map. }
  split; intros w; cbn [updb cblock_split with_blocks g_blocks]; rewrite E, ?flat_map_app, ?map_app; cbn [map flat_map]; rewrite Nat.eqb_refl.
  - f_equal; [|f_equal]; rewrite <- map_id; apply map_ext_in; intros c I; now rewrite ?(Hx _ I), ?(Hy _ I).
  - f_equal; [|f_equal].
    + clear - Hx. induction x as [|c x IH]; auto. cbn [flat_map]. rewrite (Hx c) by now left. cbn. f_equal. apply IH. intros d I. apply Hx. now right.
    + clear - Hy. induction y as [|c x IH]; auto. cbn [flat_map]. rewrite (Hy c) by now left. cbn. f_equal. apply IH. intros d I. apply Hy. now right.
Qed.
(** A block where another stood, or two *)
Lemma in_order_replace n x b y c : in_order n (x ++ b :: y) -> b_start c = b_start b -> b_end c = b_end b -> in_order n (x ++ c :: y).
Proof.
  unfold in_order. rewrite !ss_app, !Forall_app. intros ((S1 & S2 & S3) & F1 & F2) Es Ee. inversion S2; subst. inversion F2; subst.
  split; [split; auto; split|split; auto].
  - constructor; auto. rewrite Ee. auto.
  - intros a d Ia [<-|Id]; [rewrite Es; apply S3; cbn; auto|apply S3; cbn; auto].
  - constructor; auto. now rewrite Es, Ee.
Qed.
Lemma in_order_split n x b y len : in_order n (x ++ b :: y) -> (0 < len)%nat -> (len < size b)%nat ->
  in_order n (x ++ split_block len b ++ y).
Proof.
  unfold in_order, size. cbn [split_block app]. rewrite !ss_app, !Forall_app. intros ((S1 & S2 & S3) & F1 & F2) L1 L2.
  inversion S2 as [|? ? S4 S5]; subst. inversion F2 as [|? ? F3 F4]; subst.
  rewrite Forall_forall in S5. split; [split; auto; split|split; auto].
  - constructor; [constructor; auto|].
    + apply Forall_forall. intros c I. cbn. auto.
    + constructor; [cbn; lia|]. apply Forall_forall. intros c I. cbn. specialize (S5 c I). lia.
  - intros a d Ia Id. assert (H : (b_end a <= b_start b)%nat) by (apply S3; cbn; auto).
    destruct Id as [<-|[<-|Id]]; [cbn; lia|cbn; lia|]. apply S3; cbn; auto.
  - constructor; [cbn; lia|]. constructor; [cbn; lia|]. auto.
Qed.

(** The file after splits and joins of such blocks *)
Record resplit (n : nat) (f g : gfile) : Prop := {
  rs_order : in_order n (g_blocks g);
  rs_keep : filter (fun b => negb (other b)) (g_blocks g) = filter (fun b => negb (other b)) (g_blocks f);
  rs_lines : g_lines g = g_lines f; rs_ren : g_ren g = g_ren f; rs_dir : g_dir g = g_dir f; rs_base : g_base g = g_base f;
  rs_stays : forall b, In b (g_blocks f) -> exists c, In c (g_blocks g) /\ b_start c = b_start b /\ b_name c = b_name b /\ b_type c = b_type b }.
Lemma resplit_refl n f : in_order n (g_blocks f) -> resplit n f f.
Proof. split; auto. intros b I. now exists b. Qed.
Lemma resplit_trans n f g h : resplit n f g -> resplit n g h -> resplit n f h.
Proof.
  intros [A1 A2 A3 A4 A5 A6 A7] [B1 B2 B3 B4 B5 B6 B7]. split; try congruence.
  intros b I. destruct (A7 b I) as (c & J & E1 & E2 & E3). destruct (B7 c J) as (d & K & F1 & F2 & F3). exists d. split; auto. split; [congruence|]. split; congruence.
Qed.
Lemma resplit_split n f b len : in_order n (g_blocks f) -> In b (g_blocks f) -> other b = true -> (0 < len)%nat -> (len < size b)%nat ->
  resplit n f (cblock_split (b_start b) len f) /\ exists u v, others f = u ++ b :: v
     /\ others (cblock_split (b_start b) len f) = u ++ split_block len b ++ v.
Proof.
  intros O I T L1 L2. destruct (at_block f b (in_order_starts _ _ O) I) as (x & y & E & _ & Es).
  assert (Ts : forallb other (split_block len b) = true) by (cbn; unfold other in *; cbn; now rewrite T).
  split.
  - split; auto; rewrite Es.
    + apply in_order_split; auto. now rewrite <- E.
    + rewrite E, !filter_app. cbn [filter]. rewrite T. cbn [negb]. cbn [split_block filter]. unfold other in *. cbn. now rewrite T.
    + rewrite E. intros c Ic. apply in_app_or in Ic as [Ic|[<-|Ic]].
      * exists c. split; auto. apply in_or_app. now left.
      * exists (set_end b (b_start b + len)). split; auto. apply in_or_app. right. now left.
      * exists c. split; auto. apply in_or_app. right. apply in_or_app. now right.
  - unfold others. rewrite Es, E, !filter_app. cbn [filter]. rewrite T. exists (filter other x), (filter other y). split; auto.
    cbn [split_block filter]. unfold other in *. cbn. now rewrite T.
Qed.
Lemma resplit_upd n f b g : in_order n (g_blocks f) -> In b (g_blocks f) -> other b = true -> keeps g ->
  resplit n f (updb (b_start b) g f) /\ exists u v, others f = u ++ b :: v /\ others (updb (b_start b) g f) = u ++ g b :: v.
Proof.
  intros O I T K. destruct (at_block f b (in_order_starts _ _ O) I) as (x & y & E & Eu & _).
  destruct (alike_fields _ _ (K b)) as (Ks & Ke & _ & _ & _ & Kt & _).
  assert (Tg : other (g b) = true) by (unfold other in *; now rewrite Kt).
  split.
  - split; auto; rewrite Eu.
    + eapply in_order_replace; [rewrite <- E; exact O|auto|auto].
    + rewrite E, !filter_app. cbn [filter]. now rewrite T, Tg.
    + rewrite E. intros c Ic. apply in_app_or in Ic as [Ic|[<-|Ic]].
      * exists c. split; auto. apply in_or_app. now left.
      * exists (g b). split; [apply in_or_app; right; now left|]. destruct (alike_fields _ _ (K b)) as (? & _ & ? & _). auto.
      * exists c. split; auto. apply in_or_app. right. now right.
  - unfold others. rewrite Eu, E, !filter_app. cbn [filter]. rewrite T, Tg. eauto.
Qed.

(** Where the next one is *)
Lemma find_filter {A} (p q : A -> bool) l : find (fun x => p x && q x) l = find p (filter q l).
Proof.
  induction l as [|x l IH]; auto. cbn [find filter]. destruct (q x) eqn:Q; cbn [find].
  - rewrite andb_true_r. now destruct (p x).
  - now rewrite andb_false_r.
Qed.
Lemma block_from_others f s u v : others f = u ++ v -> (forall b, In b u -> (b_start b < s)%nat) ->
  (forall b, In b v -> (s <= b_start b)%nat) -> block_from f s BOther = match v with b :: _ => Some (b_start b) | [] => None end.
Proof.
  intros E Hu Hv. unfold block_from. rewrite find_filter. change (filter _ (g_blocks f)) with (others f). rewrite E.
  assert (X : find (fun b => Nat.leb s (b_start b)) (u ++ v) = hd_error v).
  { clear E. induction u as [|b u IH]; cbn [app find].
    - destruct v as [|b v]; auto. cbn. rewrite (proj2 (Nat.leb_le s (b_start b))); auto. apply Hv. now left.
    - rewrite (proj2 (Nat.leb_gt s (b_start b))); [|apply Hu; now left]. apply IH. intros c I. apply Hu. now right. }
  rewrite X. now destruct v.
Qed.
Lemma filter_order n bs p : in_order n bs -> in_order n (filter p bs).
Proof.
  intros (S & F). split.
  - clear F. induction S as [|b bs S IH H]; cbn [filter]; [constructor|]. destruct (p b); auto. constructor; auto.
    rewrite Forall_forall in *. intros c I. apply filter_In in I. apply H, I.
  - rewrite Forall_forall in *. intros c I. apply filter_In in I. apply F, I.
Qed.
Lemma others_sorted n f u b v : in_order n (g_blocks f) -> others f = u ++ b :: v ->
  (forall c, In c u -> (b_start c < b_start b)%nat) /\ (forall c, In c v -> (b_start b < b_start c)%nat)
  /\ In b (g_blocks f) /\ other b = true.
Proof.
  intros O E. pose proof (filter_order _ _ other O) as (S & F). change (filter other (g_blocks f)) with (others f) in *. rewrite E in *.
  apply ss_app in S as (S1 & S2 & S3). apply Forall_app in F as (F1 & F2). inversion S2 as [|? ? S4 S5]; subst. inversion F2 as [|? ? F3 F4]; subst.
  rewrite Forall_forall in *. split; [|split].
  - intros c I. specialize (S3 c b I (or_introl eq_refl)). specialize (F1 c I). cbn in S3. lia.
  - intros c I. specialize (S5 c I). lia.
  - assert (I : In b (others f)) by (rewrite E; apply in_or_app; right; now left). apply filter_In in I. exact I.
Qed.
Lemma nodup_split {A} (b : A) : forall u u' v v', NoDup (u ++ b :: v) -> u ++ b :: v = u' ++ b :: v' -> u = u' /\ v = v'.
Proof.
  induction u as [|a u IH]; intros [|a' u'] v v' N E; cbn [app] in *.
  - injection E as ->. auto.
  - injection E as <- ->. inversion N as [|? ? N1 N2]; subst. exfalso. apply N1. apply in_or_app. right. now left.
  - injection E as -> <-. inversion N as [|? ? N1 N2]; subst. exfalso. apply N1. apply in_or_app. right. now left.
  - injection E as <- E. inversion N as [|? ? N1 N2]; subst. destruct (IH _ _ _ N2 E) as (-> & ->). auto.
Qed.
Lemma others_nodup n f : in_order n (g_blocks f) -> NoDup (others f).
Proof. intros O. apply (NoDup_map_inv b_start). eapply in_order_starts. apply filter_order. exact O. Qed.
Lemma others_split n f u b v len : in_order n (g_blocks f) -> others f = u ++ b :: v -> (0 < len)%nat -> (len < size b)%nat ->
  resplit n f (cblock_split (b_start b) len f) /\ others (cblock_split (b_start b) len f) = u ++ split_block len b ++ v.
Proof.
  intros O E L1 L2. destruct (others_sorted _ _ _ _ _ O E) as (_ & _ & I & T).
  destruct (resplit_split n f b len O I T L1 L2) as (R & u' & v' & E1 & E2). split; auto.
  rewrite E in E1. apply nodup_split in E1 as (-> & ->); auto. rewrite <- E. eapply others_nodup; eauto.
Qed.
Lemma others_upd n f u b v g : in_order n (g_blocks f) -> others f = u ++ b :: v -> keeps g ->
  resplit n f (updb (b_start b) g f) /\ others (updb (b_start b) g f) = u ++ g b :: v.
Proof.
  intros O E K. destruct (others_sorted _ _ _ _ _ O E) as (_ & _ & I & T).
  destruct (resplit_upd n f b g O I T K) as (R & u' & v' & E1 & E2). split; auto.
  rewrite E in E1. apply nodup_split in E1 as (-> & ->); auto. rewrite <- E. eapply others_nodup; eauto.
Qed.

Definition same_out (st st' : gst) : Prop := s_out st' = s_out st /\ s_nsyms st' = s_nsyms st /\ s_data st' = s_data st.
Definition linked (st : gst) (b0 b1 : cblock) : Prop :=
  b_pair b0 = Some (b_start b1) /\ b_pair b1 = Some (b_start b0) /\ same_text (blines (s_0 st) b0) (blines (s_1 st) b1).
Record opass (n0 n1 : nat) (st0 st : gst) (u0 v0 u1 v1 : list cblock) : Prop := {
  o_0 : resplit n0 (s_0 st0) (s_0 st); o_1 : resplit n1 (s_1 st0) (s_1 st); o_out : same_out st0 st;
  o_l0 : others (s_0 st) = u0 ++ v0; o_l1 : others (s_1 st) = u1 ++ v1;
  o_linked : Forall2 (linked st) u0 u1 }.
Definition first (v : list cblock) : option nat := match v with b :: _ => Some (b_start b) | [] => None end.
Lemma cmp_other o st b0 b1 : other b0 = true -> cmp_blocks o st false b0 b1 = Ok false ->
  same_text (blines (s_0 st) b0) (blines (s_1 st) b1).
Proof.
  intros T H. unfold cmp_blocks, cblock_cmp in H. eapply cmp_fuel_text; [| | |exact H]; cbn; auto.
  unfold other in T. destruct (b_type b0); try discriminate; reflexivity.
Qed.
Lemma getb_others n f u b v : in_order n (g_blocks f) -> others f = u ++ b :: v -> getb f (b_start b) = Some b.
Proof. intros O E. destruct (others_sorted _ _ _ _ _ O E) as (_ & _ & I & _). apply getb_of; auto. eapply in_order_starts; eauto. Qed.
Lemma other_size n f u b v : in_order n (g_blocks f) -> others f = u ++ b :: v -> (0 < size b)%nat.
Proof.
  intros (_ & F) E. assert (I : In b (others f)) by (rewrite E; apply in_or_app; right; now left). apply filter_In in I as (I & _).
  rewrite Forall_forall in F. specialize (F b I). unfold size. lia.
Qed.
Lemma linked_lines st st' b0 b1 : g_lines (s_0 st') = g_lines (s_0 st) -> g_lines (s_1 st') = g_lines (s_1 st) ->
  linked st b0 b1 -> linked st' b0 b1.
Proof. intros E0 E1 (A & B & C). unfold linked, blines in *. now rewrite E0, E1. Qed.
Lemma Forall2_weaken {A B} (P Q : A -> B -> Prop) l l' : (forall a b, P a b -> Q a b) -> Forall2 P l l' -> Forall2 Q l l'.
Proof. intros H F. induction F; constructor; auto. Qed.

(** Splitting the longer of two *)
Lemma split_longer n0 n1 st0 st u0 b0 w0 u1 b1 w1 :
  opass n0 n1 st0 st u0 (b0 :: w0) u1 (b1 :: w1) ->
  let st1 := if Nat.ltb (size b0) (size b1) then with_1 st (cblock_split (b_start b1) (size b0) (s_1 st)) else st in
  let st2 := if Nat.ltb (size b1) (size b0) then with_0 st1 (cblock_split (b_start b0) (size b1) (s_0 st1)) else st1 in
  exists c0 z0 c1 z1, opass n0 n1 st0 st2 u0 (c0 :: z0) u1 (c1 :: z1) /\ b_start c0 = b_start b0 /\ b_start c1 = b_start b1.
Proof.
  intros [R0 R1 Ro L0 L1 Ln]. cbn zeta.
  pose proof (other_size _ _ _ _ _ (rs_order _ _ _ R0) L0) as Z0. pose proof (other_size _ _ _ _ _ (rs_order _ _ _ R1) L1) as Z1.
  destruct (Nat.ltb (size b0) (size b1)) eqn:C1.
  - apply Nat.ltb_lt in C1. assert (C0 : Nat.ltb (size b1) (size b0) = false) by (apply Nat.ltb_ge; lia). rewrite C0.
    destruct (others_split _ _ _ _ _ (size b0) (rs_order _ _ _ R1) L1 Z0 C1) as (S & E).
    eexists b0, w0, (set_end b1 (b_start b1 + size b0)), _. split; [|split; reflexivity]. split; cbn [with_1 s_0 s_1]; auto.
    + eapply resplit_trans; eauto.
    + exact E.
  - destruct (Nat.ltb (size b1) (size b0)) eqn:C0; [|exists b0, w0, b1, w1; split; [now split|auto]].
    apply Nat.ltb_lt in C0.
    destruct (others_split _ _ _ _ _ (size b1) (rs_order _ _ _ R0) L0 Z1 C0) as (S & E).
    eexists (set_end b0 (b_start b0 + size b1)), _, b1, w1. split; [|split; reflexivity]. split; cbn [with_0 s_0 s_1]; auto.
    + eapply resplit_trans; eauto.
    + exact E.
Qed.
Lemma join_pass n0 n1 st0 st u0 c0 z0 u1 c1 z1 : opass n0 n1 st0 st u0 (c0 :: z0) u1 (c1 :: z1) ->
  same_text (blines (s_0 st) c0) (blines (s_1 st) c1) ->
  let st' := join (b_start c0) (b_start c1) st in
  opass n0 n1 st0 st' (u0 ++ [set_pair (b_start c1) c0]) z0 (u1 ++ [set_pair (b_start c0) c1]) z1
  /\ next_after (s_0 st') (b_start c0) BOther = first z0 /\ next_after (s_1 st') (b_start c1) BOther = first z1.
Proof.
  intros [R0 R1 Ro L0 L1 Ln] St. cbn zeta.
  destruct (others_upd _ _ _ _ _ (set_pair (b_start c1)) (rs_order _ _ _ R0) L0 (keeps_pair _)) as (U0 & E0).
  destruct (others_upd _ _ _ _ _ (set_pair (b_start c0)) (rs_order _ _ _ R1) L1 (keeps_pair _)) as (U1 & E1).
  split; [|split].
  - split; cbn [join upd0 upd1 with_0 with_1 s_0 s_1].
    + eapply resplit_trans; eauto.
    + eapply resplit_trans; eauto.
    + exact Ro.
    + rewrite E0, <- app_assoc. reflexivity.
    + rewrite E1, <- app_assoc. reflexivity.
    + apply Forall2_app.
      * eapply Forall2_weaken; [|exact Ln]. intros a b. apply linked_lines; reflexivity.
      * constructor; [|constructor]. split; [reflexivity|]. split; [reflexivity|exact St].
  - destruct (others_sorted _ _ _ _ _ (rs_order _ _ _ U0) E0) as (A & B & _).
    apply block_from_others with (u := u0 ++ [set_pair (b_start c1) c0]).
    + cbn [join upd0 upd1 with_0 with_1 s_0 s_1]. rewrite E0, <- app_assoc. reflexivity.
    + intros b I. apply in_app_or in I as [I|[<-|[]]]; [specialize (A b I); cbn in A; lia|cbn; lia].
    + intros b I. specialize (B b I). cbn in B. lia.
  - destruct (others_sorted _ _ _ _ _ (rs_order _ _ _ U1) E1) as (A & B & _).
    apply block_from_others with (u := u1 ++ [set_pair (b_start c0) c1]).
    + cbn [join upd0 upd1 with_0 with_1 s_0 s_1]. rewrite E1, <- app_assoc. reflexivity.
    + intros b I. apply in_app_or in I as [I|[<-|[]]]; [specialize (A b I); cbn in A; lia|cbn; lia].
    + intros b I. specialize (B b I). cbn in B. lia.
Qed.
Lemma opass_other n0 n1 st0 st u0 c0 z0 u1 v1 : opass n0 n1 st0 st u0 (c0 :: z0) u1 v1 -> other c0 = true.
Proof.
  intros [_ _ _ L0 _ _]. assert (I : In c0 (others (s_0 st))) by (rewrite L0; apply in_or_app; right; now left).
  apply filter_In in I. apply I.
Qed.
Lemma other_loop o n0 n1 st0 : forall n st st' u0 v0 u1 v1, opass n0 n1 st0 st u0 v0 u1 v1 ->
  analyze_other_from o n (first v0) (first v1) st = Ok st' ->
  exists u0' v0' u1' v1', opass n0 n1 st0 st' u0' v0' u1' v1' /\ (v0' = [] \/ v1' = []).
Proof.
  induction n as [|n IH]; intros st st' u0 v0 u1 v1 P H.
  - destruct v0 as [|b0 w0]; [injection H as <-; eauto 8|]. destruct v1 as [|b1 w1]; [injection H as <-; eauto 8|]. discriminate.
  - destruct v0 as [|b0 w0]; [injection H as <-; eauto 8|]. destruct v1 as [|b1 w1]; [injection H as <-; eauto 8|].
    cbn [first analyze_other_from] in H.
    rewrite (getb_others n0 _ _ _ _ (rs_order _ _ _ (o_0 _ _ _ _ _ _ _ _ P)) (o_l0 _ _ _ _ _ _ _ _ P)) in H.
    rewrite (getb_others n1 _ _ _ _ (rs_order _ _ _ (o_1 _ _ _ _ _ _ _ _ P)) (o_l1 _ _ _ _ _ _ _ _ P)) in H.
    bind H as d Ed. bind H as x Ex.
    assert (X : exists c0 z0 c1 z1, opass n0 n1 st0 x u0 (c0 :: z0) u1 (c1 :: z1) /\ b_start c0 = b_start b0 /\ b_start c1 = b_start b1
                 /\ same_text (blines (s_0 x) c0) (blines (s_1 x) c1)).
    { destruct d; cbn [negb] in Ex.
      - destruct (split_longer _ _ _ _ _ _ _ _ _ _ P) as (c0 & z0 & c1 & z1 & P2 & S0 & S1). cbn zeta in *.
        match type of P2 with opass _ _ _ ?s _ _ _ _ => set (st2 := s) in * end.
        assert (G0 : getb (s_0 st2) (b_start b0) = Some c0) by (rewrite <- S0; eapply getb_others; [apply (rs_order _ _ _ (o_0 _ _ _ _ _ _ _ _ P2))|apply (o_l0 _ _ _ _ _ _ _ _ P2)]).
        assert (G1 : getb (s_1 st2) (b_start b1) = Some c1) by (rewrite <- S1; eapply getb_others; [apply (rs_order _ _ _ (o_1 _ _ _ _ _ _ _ _ P2))|apply (o_l1 _ _ _ _ _ _ _ _ P2)]).
        rewrite G0, G1 in Ex. bind Ex as d' Ed'. destruct d'; [discriminate|]. injection Ex as <-.
        exists c0, z0, c1, z1. split; auto. split; auto. split; auto. eapply cmp_other; [eapply opass_other; eauto|exact Ed'].
      - injection Ex as <-. exists b0, w0, b1, w1. split; [exact P|]. split; [auto|]. split; [auto|]. eapply cmp_other; [eapply opass_other; eauto|exact Ed]. }
    destruct X as (c0 & z0 & c1 & z1 & P2 & S0 & S1 & St). rewrite <- S0, <- S1 in H.
    destruct (join_pass _ _ _ _ _ _ _ _ _ _ P2 St) as (P3 & N0 & N1). cbn zeta in *. rewrite N0, N1 in H. eapply IH; eauto.
Qed.
Theorem analyze_other_spec o n0 n1 st st' : in_order n0 (g_blocks (s_0 st)) -> in_order n1 (g_blocks (s_1 st)) ->
  analyze_other o st = Ok st' ->
  resplit n0 (s_0 st) (s_0 st') /\ resplit n1 (s_1 st) (s_1 st') /\ same_out st st'
  /\ exists u0 v0 u1 v1, others (s_0 st') = u0 ++ v0 /\ others (s_1 st') = u1 ++ v1 /\ Forall2 (linked st') u0 u1 /\ (v0 = [] \/ v1 = []).
Proof.
  intros O0 O1 H. unfold analyze_other in H.
  assert (P : opass n0 n1 st st [] (others (s_0 st)) [] (others (s_1 st))) by (split; auto using resplit_refl; now split).
  rewrite (block_from_others (s_0 st) 0 [] (others (s_0 st))) in H; [|auto|intros b []|lia].
  rewrite (block_from_others (s_1 st) 0 [] (others (s_1 st))) in H; [|auto|intros b []|lia].
  apply (other_loop o n0 n1 st _ _ _ _ _ _ _ P) in H as (u0 & v0 & u1 & v1 & [R0 R1 Ro L0 L1 Ln] & V).
  split; auto. split; auto. split; auto. exists u0, v0, u1, v1. auto.
Qed.
